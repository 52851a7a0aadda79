(** Proofs for C86. *)

From Coq Require Import ZifyBool ZifyNat Lia.
From Verif Require Import Base Str Multi Color Raster Font Graphic Config Sign Render
  Spec_Multi Spec_Color Spec_Font Spec_Graphic Spec_Sign Spec_Render Spec_Layout Spec_Draw Spec_Page Spec_Safe Spec_Fail Spec_Below Spec_Beside Spec_Apart
  Proofs_Str Proofs_Norm Proofs_Font Proofs_Glyph Proofs_Graphic Proofs_Sign Proofs_Render Proofs_Pages Proofs_Horiz Proofs_Vert Proofs_Layout
  Proofs_Place Proofs_Draw Proofs_Page Proofs_Orderly Proofs_Rows Proofs_Text Proofs_Unique Proofs_Below Proofs_Beside.
Open Scope list_scope.

(** Texts whose places stay as they were. *)
Lemma texts_kept d c vs ws r r' q q' :
  (forall s x y, In s (texts d c [] vs) -> AtX d (texts d c [] vs) s x -> AtX d (texts d c [] vs ++ texts d c vs ws) s y -> x = y) ->
  (forall s x y, In s (texts d c [] vs) -> AtY d (texts d c [] vs) s x -> AtY d (texts d c [] vs ++ texts d c vs ws) s y -> x = y) ->
  SameImage r r' -> TextsShown d c vs r q -> TextsShown d c (vs ++ ws) r' q' ->
  r_width q' = r_width q /\ r_height q' = r_height q
  /\ forall x y, on_raster q x y -> r_pixel q' x y = r_pixel q x y
     \/ exists t, In t (texts d c vs ws) /\ r_pixel q' x y = foreground_rgb (rs_ctx (span_state t)).
Proof.
  intros HX HY S T T'. pose proof (texts_app d c vs [] ws) as ET. cbn [app] in ET.
  apply ts_at in T, T'. rewrite ET in T'. apply drawn_app in T' as (m & D1 & D2).
  pose proof (drawn_places d _ _ _ _ _ T HX HY _ _ S D1) as (W1 & H1 & P1).
  destruct (painted_draw d _ _ _ _ D2) as (W & H & P).
  splits; try congruence. intros x y O. specialize (P1 x y O).
  destruct (P x y) as [E|(t & b & It & _ & _ & E)]; [left; congruence|right; eauto].
Qed.

Lemma block_apart d c vs ws : Orderly d (pl_earlier c ++ pl_upto c) vs ->
  (exists j r, ws = VJustificationPage j :: r /\ Forall adds_text r
     /\ jp_rank (jp_of d ((pl_earlier c ++ pl_upto c) ++ vs)) < jp_rank (jp_of d ((pl_earlier c ++ pl_upto c) ++ vs ++ [VJustificationPage j]))) ->
  forall s t, In s (texts d c [] vs) -> In t (texts d c vs ws) -> s_jp t <> s_jp s.
Proof.
  intros HO (j & r & -> & HR & L) s t Is It E.
  pose proof (iv_jp d c vs (orderly_inv d c vs HO) s Is) as K. cbn [texts app] in It.
  apply (added_texts d c r HR) in It as [J _]. rewrite <- E, J in K. lia.
Qed.

Lemma texts_block d c vs ws r r' q q' :
  (forall s t, In s (texts d c [] vs) -> In t (texts d c vs ws) -> s_jp t <> s_jp s) ->
  SameImage r r' -> TextsShown d c vs r q -> TextsShown d c (vs ++ ws) r' q' ->
  r_width q' = r_width q /\ r_height q' = r_height q
  /\ forall x y, on_raster q x y -> r_pixel q' x y = r_pixel q x y
     \/ exists t, In t (texts d c vs ws) /\ r_pixel q' x y = foreground_rgb (rs_ctx (span_state t)).
Proof.
  intros HA. apply texts_kept; intros s x y I.
  - apply at_x_front. intros t It (R & _). exact (HA s t I It R).
  - intros H (bl & ls & a & t & b & h & P & K). apply (at_y_fun d _ s x y H). exists bl, ls, a, t, b, h. split; [|exact K].
    apply (picked_front _ _ (texts d c vs ws)); auto. intros u Iu R. exact (HA s u I Iu R).
Qed.

(** ** On a line *)

Lemma run_step d c vs j : let a := setting d c vs in let b := setting d c (vs ++ [VJustificationLine j]) in
  rs_jp b = rs_jp a /\ rs_line b = rs_line a /\ rs_rect b = rs_rect a
  /\ rs_font b = rs_font a /\ rs_font_vid b = rs_font_vid a /\ rs_line_spacing b = rs_line_spacing a.
Proof.
  unfold setting. cbn [rs_jp rs_jl rs_line rs_rect rs_font rs_font_vid rs_line_spacing].
  unfold jp_of, font_of. rewrite !app_assoc, !Proofs_Page.in_force_snoc, line_at_snoc. cbn. splits; reflexivity.
Qed.

Lemma run_alike d c a v j ws : is_text v -> Forall adds_beside ws -> exists s, In s (texts d c [] (a ++ [v]))
  /\ s_jp s = jp_of d ((pl_earlier c ++ pl_upto c) ++ a ++ [v]) /\ s_line s = line_at d (pl_earlier c ++ pl_upto c) 0 (a ++ [v])
  /\ forall t, In t (texts d c (a ++ [v]) (VJustificationLine j :: ws)) -> Alike s t
     /\ s_jl t = jl_of d ((pl_earlier c ++ pl_upto c) ++ (a ++ [v]) ++ [VJustificationLine j]).
Proof.
  intros HV HW. destruct (text_last d c a v HV) as (s' & I' & E').
  exists s'. assert (B : adds_beside v) by (destruct v; try contradiction; exact Logic.I).
  destruct (beside_step d c a v B) as (S1 & _ & S3 & S4 & S5 & S6 & S7).
  split; auto. unfold s_jp, s_line. rewrite E'. split; [symmetry; exact S1|]. split; [symmetry; exact S3|].
  intros t It. cbn [texts app] in It. apply (beside_texts d c ws HW) in It as (Q1 & Q2 & Q3 & Q4 & Q5 & Q6 & Q7).
  destruct (run_step d c (a ++ [v]) j) as (R1 & R3 & R4 & R5 & R6 & R7).
  split; [|exact Q2]. unfold Alike, s_jp, s_line, s_rect. rewrite E'. splits; congruence.
Qed.

Lemma texts_run d c vs ws r r' q q' :
  (exists a v, vs = a ++ [v] /\ is_text v) ->
  (exists j l, ws = VJustificationLine j :: l /\ Forall adds_beside l
     /\ jl_rank (jl_of d ((pl_earlier c ++ pl_upto c) ++ vs)) < jl_rank (jl_of d ((pl_earlier c ++ pl_upto c) ++ vs ++ [VJustificationLine j]))) ->
  Orderly d (pl_earlier c ++ pl_upto c) vs ->
  SameImage r r' -> TextsShown d c vs r q -> TextsShown d c (vs ++ ws) r' q' ->
  r_width q' = r_width q /\ r_height q' = r_height q
  /\ forall x y, on_raster q x y -> r_pixel q' x y = r_pixel q x y
     \/ exists t, In t (texts d c vs ws) /\ r_pixel q' x y = foreground_rgb (rs_ctx (span_state t)).
Proof.
  intros (a & v & -> & HV) (j & l & -> & HL & R) HO. set (vs := a ++ [v]) in *.
  destruct (run_alike d c a v j l HV HL) as (s0 & I0 & P0 & L0 & HM). fold vs in I0, P0, L0, HM.
  pose proof (orderly_inv d c vs HO) as IV. destruct (orderly d c _ HO) as [_ K1].
  apply texts_kept; intros s x y I.
  - apply at_x_front. intros t It (R1 & R2 & R3). destruct (HM t It) as ((A1 & A2 & _) & A3).
    destruct (iv_same d c vs IV s I) as (_ & _ & K); [congruence|]. destruct K as [K _]; [congruence|].
    rewrite <- R3, A3 in K. lia.
  - apply (beside_y d _ _ s0); auto; [intros t It; apply (HM t It)|].
    intros u Iu E. rewrite L0. rewrite P0 in E. exact (proj1 (iv_same d c vs IV u Iu E)).
Qed.

(** ** Pages *)

Lemma run_still l : Forall adds_beside l -> forall j, Forall still (VJustificationLine j :: l).
Proof. intros H j. constructor; [exact I|]. exact (Forall_impl _ adds_still (beside_adds l H)). Qed.

Lemma apart md d ms ms' fr vs ws p l p' l' : Built d -> (md = Release -> ~ Wraps d ms /\ ~ Wraps d ms') ->
  Meaning ms (map Ok (fr ++ vs)) -> Meaning ms' (map Ok (fr ++ vs ++ ws)) -> BlockAdded d fr vs ws \/ RunAdded d fr vs ws ->
  Yields md d ms (map Ok (p :: l)) -> Yields md d ms' (map Ok (p' :: l')) ->
  pg_duration p' = pg_duration p
  /\ r_width (pg_raster p') = r_width (pg_raster p) /\ r_height (pg_raster p') = r_height (pg_raster p)
  /\ forall x y, on_raster (pg_raster p) x y ->
     r_pixel (pg_raster p') x y = r_pixel (pg_raster p) x y
     \/ exists t, In t (texts d (last_place d fr (fr ++ vs)) vs ws)
          /\ r_pixel (pg_raster p') x y = foreground_rgb (rs_ctx (span_state t)).
Proof.
  intros HB HW M M' [(HF & N1 & N2 & HT & HA & HO)|(HF & N1 & N2 & HT & HV & HA & HO)] Y Y'.
  - assert (HS : Forall still ws).
    { destruct HA as (j & r & -> & HR & _). constructor; [exact I|exact (Forall_impl _ adds_still HR)]. }
    destruct (last_shown md d ms ms' fr vs ws p l p' l' HB HW M M' HF N1 N2 HT HS Y Y') as (D & r & r' & SI & T & T').
    split; [exact D|]. apply (texts_block d (last_place d fr (fr ++ vs)) vs ws r r'); auto.
    apply block_apart; [exact (orderly_front d _ _ _ HO)|exact HA].
  - assert (HS : Forall still ws).
    { destruct HA as (j & r & -> & HR & _). apply run_still; auto. }
    destruct (last_shown md d ms ms' fr vs ws p l p' l' HB HW M M' HF N1 N2 HT HS Y Y') as (D & r & r' & SI & T & T').
    split; [exact D|]. apply (texts_run d (last_place d fr (fr ++ vs)) vs ws r r'); auto.
    exact (orderly_front d _ _ _ HO).
Qed.
