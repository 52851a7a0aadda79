(** Proofs for C85. *)

From Coq Require Import ZifyBool ZifyNat Lia.
From Verif Require Import Base Str Multi Color Raster Font Graphic Config Sign Render
  Spec_Multi Spec_Color Spec_Font Spec_Graphic Spec_Sign Spec_Render Spec_Layout Spec_Draw Spec_Page Spec_Safe Spec_Fail Spec_Below Spec_Beside
  Proofs_Str Proofs_Norm Proofs_Font Proofs_Glyph Proofs_Graphic Proofs_Sign Proofs_Render Proofs_Pages Proofs_Horiz Proofs_Vert Proofs_Layout
  Proofs_Place Proofs_Draw Proofs_Page Proofs_Orderly Proofs_Rows Proofs_Text Proofs_Unique Proofs_Below.
Open Scope list_scope.

(** ** Spans that differ in text, number, colour and spacing *)

Definition Alike (s t : Span) : Prop :=
  s_jp t = s_jp s /\ s_line t = s_line s /\ s_rect t = s_rect s
  /\ rs_font (span_state t) = rs_font (span_state s) /\ rs_font_vid (span_state t) = rs_font_vid (span_state s)
  /\ rs_line_spacing (span_state t) = rs_line_spacing (span_state s).

Definition AlikeState (a b : RenderState) : Prop :=
  rs_jp b = rs_jp a /\ rs_jl b = rs_jl a /\ rs_line b = rs_line a /\ rs_rect b = rs_rect a
  /\ rs_font b = rs_font a /\ rs_font_vid b = rs_font_vid a /\ rs_line_spacing b = rs_line_spacing a.

Section Texts.
Variables (d : Dms) (c : Place).
Notation past := (pl_earlier c ++ pl_upto c).

Lemma beside_step vs v : adds_beside v -> AlikeState (setting d c vs) (setting d c (vs ++ [v])).
Proof.
  intros H. unfold AlikeState, setting. cbn [rs_jp rs_jl rs_line rs_rect rs_font rs_font_vid rs_line_spacing].
  unfold jp_of, jl_of, font_of. rewrite !app_assoc, !Proofs_Page.in_force_snoc, line_at_snoc.
  destruct v; try contradiction; cbn; splits; reflexivity.
Qed.

Lemma alike_trans a b e : AlikeState a b -> AlikeState b e -> AlikeState a e.
Proof. unfold AlikeState. intuition congruence. Qed.

Lemma beside_texts ws : Forall adds_beside ws -> forall vs t, In t (texts d c vs ws) -> AlikeState (setting d c vs) (span_state t).
Proof.
  induction 1 as [|v ws V _ IH]; intros vs t I; [destruct I|]. cbn [texts] in I. apply in_app_or in I as [I|I].
  - destruct v; try contradiction; destruct I as [<-|[]]; unfold AlikeState; splits; reflexivity.
  - exact (alike_trans _ _ _ (beside_step vs v V) (IH _ _ I)).
Qed.

Lemma text_last r v : is_text v -> exists s, In s (texts d c [] (r ++ [v])) /\ span_state s = setting d c r.
Proof.
  intros H. rewrite texts_app. cbn [app texts]. destruct v; try contradiction; eexists; (split; [apply in_or_app; right; now left|reflexivity]).
Qed.

Lemma beside_alike r v ws : is_text v -> Forall adds_beside ws -> exists s, In s (texts d c [] (r ++ [v]))
  /\ s_jl s = jl_of d (past ++ r ++ [v]) /\ s_jp s = jp_of d (past ++ r ++ [v]) /\ s_line s = line_at d past 0 (r ++ [v])
  /\ forall t, In t (texts d c (r ++ [v]) ws) -> Alike s t /\ s_jl t = s_jl s.
Proof.
  intros HV HW. destruct (text_last r v HV) as (s & I & E). exists s. split; auto.
  assert (B : adds_beside v) by (destruct v; try contradiction; exact Logic.I).
  pose proof (beside_step r v B) as S. unfold s_jl, s_jp, s_line. rewrite E.
  destruct S as (S1 & S2 & S3 & S4). unfold setting in S1, S2, S3. cbn [rs_jp rs_jl rs_line] in S1, S2, S3.
  rewrite S1, S2, S3. split; [reflexivity|]. split; [reflexivity|]. split; [reflexivity|].
  intros t J. pose proof (alike_trans _ _ _ (beside_step r v B) (beside_texts ws HW _ _ J)) as K.
  rewrite <- E in K. destruct K as (Q1 & Q2 & Q3). split; [split; [exact Q1|exact Q3]|]. unfold s_jl in *. congruence.
Qed.

Lemma beside_adds ws : Forall adds_beside ws -> Forall adds_text ws.
Proof. apply Forall_impl. intros v; destruct v; cbn; auto. Qed.
End Texts.

(** ** Heights of a line with more such text *)

Lemma alike_font fonts s t f : Alike s t -> (FontOf fonts t f <-> FontOf fonts s f).
Proof. intros (_ & _ & _ & E1 & E2 & _). unfold FontOf. rewrite E1, E2. reflexivity. Qed.

Lemma alike_greatest (R : Span -> Z -> Prop) g m s v : (forall t u, In t m -> R t u -> R s u) -> In s g ->
  Greatest R (g ++ m) v -> Greatest R g v.
Proof.
  intros H I ((x & J & K) & L). split.
  - apply in_app_or in J as [J|J]; [eauto|]. exists s. split; auto. exact (H x v J K).
  - intros y u Iy. apply L. apply in_or_app; auto.
Qed.

Lemma alike_asked g m s o : (forall t, In t m -> Alike s t) -> In s g -> Asked (g ++ m) o -> Asked g o.
Proof.
  intros H I A. remember (g ++ m) as l eqn:E. destruct A as [l N|l a x b n E' N X]; subst l.
  - apply As_none. intros t J. apply N, in_or_app; auto.
  - apply app_eq_app in E' as (k & [[E1 E2]|[E1 E2]]).
    + destruct k as [|y k]; cbn [app] in E2.
      * exfalso. rewrite app_nil_r in E1. subst a. assert (Ix : In x m) by (rewrite <- E2; now left).
        destruct (H x Ix) as (_ & _ & _ & _ & _ & L). rewrite (N s I) in L. congruence.
      * injection E2 as <- _. exact (As_some g a x k n E1 N X).
    + exfalso. assert (Ix : In x m) by (rewrite E2; apply in_elt).
      destruct (H x Ix) as (_ & _ & _ & _ & _ & L).
      assert (In s a) by (rewrite E1; apply in_or_app; auto). rewrite (N s H0) in L. congruence.
Qed.

Lemma alike_stack d init g m s v : (forall t, In t m -> Alike s t) -> In s g ->
  StackHeight d (init ++ [g ++ m]) v -> StackHeight d (init ++ [g]) v.
Proof.
  intros H I K.
  assert (GH : forall v, Greatest (HeightOf (d_fonts d)) (g ++ m) v -> Greatest (HeightOf (d_fonts d)) g v).
  { intros u. apply (alike_greatest _ g m s); auto. intros t w It (f & F & ->). exists f. split; auto.
    now apply (alike_font _ s t f (H t It)). }
  assert (GL : forall v, Greatest (LeadOf (d_fonts d)) (g ++ m) v -> Greatest (LeadOf (d_fonts d)) g v).
  { intros u. apply (alike_greatest _ g m s); auto. intros t w It (f & F & ->). exists f. split; auto.
    now apply (alike_font _ s t f (H t It)). }
  remember (init ++ [g ++ m]) as ls eqn:E. destruct K as [|l h G|r p l v g' h S G' G].
  - destruct init; discriminate E.
  - destruct init as [|i init]; [|destruct init; discriminate E]. injection E as ->. apply Sk_one; auto.
  - change (r ++ [p; l]) with (r ++ [p] ++ [l]) in E. rewrite app_assoc in E. apply app_inj_tail in E as [<- ->].
    rewrite <- app_assoc. cbn [app]. apply Sk_snoc; auto.
    destruct G' as [C|n C A|a b C A G1 G2]; [now constructor 1|apply Lg_set; auto|apply Lg_avg; auto];
      apply (alike_asked g m s); auto.
Qed.

(** ** Places *)

Lemma jp_dec (a b : JustificationPage) : {a = b} + {a <> b}. Proof. decide equality. Qed.
Lemma jl_dec (a b : JustificationLine) : {a = b} + {a <> b}. Proof. decide equality. Qed.
Lemma run_dec s t : SameRun s t \/ ~ SameRun s t.
Proof.
  unfold SameRun. destruct (jp_dec (s_jp t) (s_jp s)); [|right; tauto]. destruct (jl_dec (s_jl t) (s_jl s)); [|right; tauto].
  destruct (Z.eq_dec (s_line t) (s_line s)); [auto|right; tauto].
Qed.

Lemma Picked_iff {A} (P Q : A -> Prop) l g : (forall x, P x <-> Q x) -> Picked Q l g -> Picked P l g.
Proof. intros H. induction 1 as [|x l g X K IH|x l g X K IH]; constructor; auto; firstorder. Qed.

Lemma counted_more init g : forall m l, Counted l (init ++ [g]) -> (forall t, In t m -> s_line t = Z.of_nat (List.length init)) ->
  Counted (l ++ m) (init ++ [g ++ m]).
Proof.
  intros m. induction m as [|t m IH] using rev_ind; intros l C H; [now rewrite !app_nil_r|].
  rewrite !app_assoc. apply Ct_old; [|apply H, in_elt]. apply IH; auto. intros u I. apply H, in_or_app; auto.
Qed.

Section Places.
Variables (d : Dms) (l m : list Span) (s0 : Span).
Hypothesis I0 : In s0 l.
Hypothesis HM : forall t, In t m -> Alike s0 t.
Hypothesis HL : forall s, In s l -> s_jp s = s_jp s0 -> s_line s <= s_line s0.
Hypothesis HK : Stacked l.
Hypothesis HN : Numbered (l ++ m).

Lemma picked_all {A} (P : A -> Prop) a : (forall x, In x a -> P x) -> Picked P a a.
Proof. induction a as [|x a IH]; intros H; constructor; auto; [apply H; now left|apply IH; intros y I; apply H; now right]. Qed.

Lemma beside_x s x y : (forall t, In t m -> s_jl t = s_jl s0) -> s_jl s0 = JlLeft -> In s l -> AtX d l s x -> AtX d (l ++ m) s y -> x = y.
Proof.
  intros HM2 HJ I H K.
  destruct (run_dec s s0) as [R|R].
  2:{ apply (at_x_front d l m s x y); auto. intros t It (R1 & R2 & R3). apply R.
      destruct (HM t It) as (A1 & A3 & _). pose proof (HM2 t It) as A2. unfold SameRun. splits; congruence. }
  destruct H as (run & b & t & P & O & _ & _ & X), K as (run' & b' & t' & P' & O' & _ & _ & X').
  destruct R as (R1 & R2 & R3). rewrite <- R3, HJ in X, X'. cbn in X, X'.
  apply Picked_app in P' as (g1 & g2 & -> & P1 & P2). rewrite (Picked_fun _ _ _ _ P1 P) in *.
  apply offset_app in O' as (u & w & O1 & O2 & ->). rewrite (RunOffset_fun _ _ _ _ _ _ O1 O) in *.
  assert (w = 0); [|lia].
  apply (offset_more d (s_number s) g2 (match rev run with [] => None | s1 :: _ => Some s1 end)); auto.
  intros u' Iu. apply (Picked_in _ _ _ _ P2) in Iu as [Iu SR].
  apply in_split in I as (a1 & a2 & El), Iu as (b1 & b2 & Em).
  apply (HN a1 s (a2 ++ b1) u' b2); auto. rewrite El, Em, <- !app_assoc. reflexivity.
Qed.

Lemma last_line ls : BlockLines l s0 ls -> exists init g, ls = init ++ [g] /\ In s0 g /\ Z.of_nat (List.length init) = s_line s0.
Proof.
  intros [B1 B2]. destruct (B2 s0 I0 eq_refl) as [L0 L1].
  destruct (nth_error ls (Z.to_nat (s_line s0))) as [g|] eqn:E; [|apply nth_error_None in E; lia].
  apply nth_error_split in E as (init & post & -> & Len). exists init, g.
  destruct (B1 (Z.to_nat (s_line s0)) g) as [_ P]; [rewrite nth_error_app2 by lia; now rewrite <- Len, Nat.sub_diag|].
  splits; [|apply (Picked_in _ _ _ _ P); split; auto; split; [reflexivity|lia]|lia].
  destruct post as [|h post]; auto. exfalso.
  destruct (B1 (S (Z.to_nat (s_line s0))) h) as [N Q].
  { rewrite nth_error_app2 by lia. replace (S (Z.to_nat (s_line s0)) - List.length init)%nat with 1%nat by lia. reflexivity. }
  destruct h as [|u h]; [congruence|]. destruct (proj1 (Picked_in _ _ _ u Q) (or_introl eq_refl)) as [Iu [U1 U2]].
  specialize (HL u Iu U1). lia.
Qed.

Lemma beside_y s x y : In s l -> AtY d l s x -> AtY d (l ++ m) s y -> x = y.
Proof.
  intros I H K.
  destruct (jp_dec (s_jp s) (s_jp s0)) as [R|R].
  2:{ apply (at_y_fun d l s x y H). destruct K as (bl & K). exists bl. destruct K as (ls & a & t & b & h & P & K).
      exists ls, a, t, b, h. split; [|exact K]. apply (picked_front _ _ m); auto.
      intros u Iu SB. destruct (HM u Iu) as (A1 & _). unfold SameBlock in SB. congruence. }
  assert (EB : forall u, SameBlock s u <-> SameBlock s0 u) by (intros u; unfold SameBlock; rewrite R; reflexivity).
  destruct H as (bl & ls & a & t & b & h & P & C & SA & ST & _ & X & Hh & ->),
           K as (bl' & ls' & a' & t' & b' & h' & P' & C' & SA' & ST' & _ & X' & Hh' & ->).
  assert (BL : BlockLines l s0 ls).
  { rewrite (Picked_fun _ _ _ _ P (block_picked l s)) in C.
    pose proof (counted_block l s ls HK C) as [B1 B2]. split.
    - intros n g E. destruct (B1 n g E) as [Ng Pg]. split; auto. apply (Picked_iff _ (OnLine s (Z.of_nat n))); auto.
      intros u. unfold OnLine. rewrite EB. reflexivity.
    - intros u Iu SB. apply B2; auto. now apply EB. }
  destruct (last_line ls BL) as (init & g & -> & I1 & Len).
  apply Picked_app in P' as (g1 & g2 & -> & P1 & P2). rewrite (Picked_fun _ _ _ _ P1 P) in *.
  assert (g2 = m) as ->.
  { apply (Picked_fun _ _ _ _ P2), picked_all. intros u Iu. destruct (HM u Iu) as (A1 & _). unfold SameBlock. congruence. }
  assert (EL : forall u, In u m -> s_line u = Z.of_nat (List.length init)).
  { intros u Iu. destruct (HM u Iu) as (_ & A & _). lia. }
  rewrite (counted_fun _ _ C' _ (counted_more init g m bl C EL)) in *.
  assert (t' = t) as ->.
  { apply (alike_stack d init g m s0) in ST'; auto. exact (StackHeight_fun d _ _ _ ST' ST). }
  assert (a' = a) as ->.
  { set (k := Z.to_nat (s_line s + 1)) in *. destruct (Nat.le_gt_cases k (List.length init)) as [L|L].
    - rewrite firstn_app in SA, SA'. replace (k - List.length init)%nat with 0%nat in * by lia. cbn [firstn] in *.
      rewrite !app_nil_r in *. exact (StackHeight_fun d _ _ _ SA' SA).
    - rewrite !firstn_all2 in SA, SA' by (rewrite app_length; cbn [List.length]; lia).
      apply (alike_stack d init g m s0) in SA'; auto. exact (StackHeight_fun d _ _ _ SA' SA). }
  rewrite (HeightOf_fun _ _ _ _ Hh' Hh). f_equal. exact (place_y_fun _ _ _ _ _ _ _ _ X X').
Qed.
End Places.

(** ** Columns of the text added *)

Lemma offset_nonneg sp ws : 0 <= sp -> Forall (fun w => 0 <= w) ws -> 0 <= offset_after sp ws.
Proof.
  intros HS H. rewrite offset_advance by auto. unfold advance.
  pose proof (acc_mono sp ws 0 HS H). destruct (0 <? _); lia.
Qed.

Lemma ink_column fonts s f cs x y px py : table_fields fonts -> span_fields s -> SetWith fonts s f cs ->
  InkText (spacing_in s f) (f_height f) cs x y px py -> x <= px.
Proof.
  intros HF HS (Hf & t & _ & Hsp) (pre & c & post & E & _ & H & _).
  pose proof (FontOf_fields _ _ _ HF Hf) as Hff. pose proof (spacing_u8 s f HS Hff) as Us. unfold u8 in Us.
  assert (W : Forall (fun w => 0 <= w) (map c_width cs)).
  { apply (widths_nonneg f t); auto. apply Hff. }
  rewrite E, map_app in W. apply Forall_app in W as [W _].
  pose proof (offset_nonneg (spacing_in s f) _ ltac:(lia) W). lia.
Qed.

Lemma painted_columns d all : table_fields (d_fonts d) -> forall todo p q, DrawnAt d all todo p q -> Forall span_fields todo ->
  r_width q = r_width p /\ r_height q = r_height p
  /\ forall x y, r_pixel q x y = r_pixel p x y
     \/ exists t a, In t todo /\ AtX d all t a /\ a <= x /\ r_pixel q x y = foreground_rgb (rs_ctx (span_state t)).
Proof.
  intros HF. induction 1 as [p|s r p q q' f cs x y SW X Y P D IH]; intros HS; [splits; auto|].
  inversion HS as [|? ? S1 S2]; subst.
  destruct P as (P1 & P2 & P). destruct (IH S2) as (I1 & I2 & IH'). splits; try congruence.
  intros a b. destruct (IH' a b) as [E|(t & v & I & H)]; [|right; exists t, v; split; [now right|exact H]].
  destruct (rgb_dec (r_pixel q a b) (r_pixel p a b)) as [E'|E']; [left; congruence|].
  destruct (P a b) as [H1 H2]. right. exists s, x. splits; [now left|exact X| |].
  - destruct (Z_le_dec x a); auto. exfalso. apply E', H2. intros K. apply (ink_column _ _ _ _ _ _ _ _ HF S1 SW) in K. lia.
  - rewrite E. destruct (rgb_dec (r_pixel q a b) (foreground_rgb (rs_ctx (span_state s)))) as [K|K]; auto.
    exfalso. apply E', H2. auto.
Qed.

Lemma drawn_x d all : forall todo p q, DrawnAt d all todo p q -> forall s, In s todo -> exists x, AtX d all s x.
Proof. induction 1 as [p|s r p q q' f cs x y SW X Y P D IH]; intros t []; [subst t; eauto|auto]. Qed.

Lemma texts_beside d c vs ws r r' q q' : Built d -> jl_of d ((pl_earlier c ++ pl_upto c) ++ vs) = JlLeft ->
  (exists a v, vs = a ++ [v] /\ is_text v) -> Forall adds_beside ws -> Orderly d (pl_earlier c ++ pl_upto c) (vs ++ ws) ->
  SameImage r r' -> TextsShown d c vs r q -> TextsShown d c (vs ++ ws) r' q' ->
  r_width q' = r_width q /\ r_height q' = r_height q
  /\ forall x y, on_raster q x y -> r_pixel q' x y = r_pixel q x y
     \/ exists t, In t (texts d c vs ws) /\ r_pixel q' x y = foreground_rgb (rs_ctx (span_state t))
          /\ RightOfRun d (texts d c [] vs) t x.
Proof.
  intros HB HJ (a & v & -> & HV) HW HO S T T'.
  destruct (Built_parts d HB) as (HF & _ & HC).
  destruct (beside_alike d c a v ws HV HW) as (s0 & I0 & J0 & P0 & L0 & HM).
  rewrite HJ in J0. set (vs := a ++ [v]) in *.
  pose proof (orderly_front d _ _ _ HO) as HO1.
  pose proof (orderly_inv d c vs HO1) as IV.
  destruct (orderly d c _ HO1) as [N1 K1], (orderly d c _ HO) as [N2 K2].
  pose proof (texts_app d c vs [] ws) as ET. cbn [app] in ET.
  assert (HS : Forall span_fields (texts d c [] (vs ++ ws))) by (destruct T'; auto).
  assert (HR : forall s, In s (texts d c [] (vs ++ ws)) -> s_rect s = pl_rect c) by (intros s; apply texts_rect).
  assert (HL : forall s, In s (texts d c [] vs) -> s_jp s = s_jp s0 -> s_line s <= s_line s0).
  { intros s I E. rewrite L0. rewrite P0 in E. exact (proj1 (iv_same d c vs IV s I E)). }
  apply ts_at in T, T'. rewrite ET in T', N2, HS, HR. apply drawn_app in T' as (m & D1 & D2).
  set (l := texts d c [] vs) in *. set (n := texts d c vs ws) in *.
  assert (XX : forall s x y, In s l -> AtX d l s x -> AtX d (l ++ n) s y -> x = y).
  { intros s x y. apply (beside_x d l n s0); auto; intros t It; apply (HM t It). }
  assert (SI : SameImage q m).
  { apply (drawn_places d l (l ++ n) l r q T) with (p' := r'); auto.
    intros s x y. apply (beside_y d l n s0); auto. intros t It; apply (HM t It). }
  apply Forall_app in HS as HS2. destruct HS2 as [_ HS2].
  destruct (painted_columns d _ HF _ _ _ D2 HS2) as (W & H & P). destruct SI as (W1 & H1 & P1).
  splits; try congruence. intros x y O. specialize (P1 x y O).
  destruct (P x y) as [E|(t & b & It & X & L & E)]; [left; congruence|]. right. exists t. splits; auto.
  intros s left w I SR PX SW.
  assert (PX' : PlacedX d (l ++ n) s left).
  { destruct (drawn_x d _ _ _ _ D1 s I) as [y' Y']. apply (at_placed_x d l s left N1 I) in PX.
    rewrite <- (XX s left y' I PX Y') in Y'. apply at_placed_x in Y'; auto. apply in_or_app; auto. }
  apply at_placed_x in X; auto; [|apply in_or_app; auto].
  assert (left + w <= b); [|lia].
  pose proof I as Is. pose proof It as It'. apply in_split in I as (a1 & a2 & El), It as (b1 & b2 & En).
  assert (EA : l ++ n = a1 ++ s :: (a2 ++ b1) ++ t :: b2) by (rewrite El, En, <- !app_assoc; reflexivity).
  rewrite EA in HS, N2, PX', X.
  refine (proj1 (run_columns d HF HC a1 s (a2 ++ b1) t b2 left b w HS N2 _ _ PX' X SW _)).
  - destruct SR as (R1 & R2 & R3). unfold SameRun. auto.
  - rewrite !HR by (apply in_or_app; auto). reflexivity.
  - intros EJ. exfalso. destruct SR as (_ & _ & R3). destruct (HM t It') as [_ A2]. congruence.
Qed.

Lemma beside md d ms ms' fr vs ws p l p' l' : Built d -> (md = Release -> ~ Wraps d ms /\ ~ Wraps d ms') ->
  Meaning ms (map Ok (fr ++ vs)) -> Meaning ms' (map Ok (fr ++ vs ++ ws)) -> TextAdded d fr vs ws ->
  Yields md d ms (map Ok (p :: l)) -> Yields md d ms' (map Ok (p' :: l')) ->
  pg_duration p' = pg_duration p
  /\ r_width (pg_raster p') = r_width (pg_raster p) /\ r_height (pg_raster p') = r_height (pg_raster p)
  /\ forall x y, on_raster (pg_raster p) x y ->
     r_pixel (pg_raster p') x y = r_pixel (pg_raster p) x y
     \/ exists t, In t (texts d (last_place d fr (fr ++ vs)) vs ws)
          /\ r_pixel (pg_raster p') x y = foreground_rgb (rs_ctx (span_state t))
          /\ RightOfRun d (texts d (last_place d fr (fr ++ vs)) [] vs) t x.
Proof.
  intros HB HW M M' (HF & N1 & N2 & HT & HJ & HN & HA & HO) Y Y'.
  destruct (last_shown md d ms ms' fr vs ws p l p' l' HB HW M M' HF N1 N2 HT (Forall_impl _ adds_still (beside_adds ws HA)) Y Y') as (D & r & r' & SI & T & T').
  split; [exact D|]. exact (texts_beside d (last_place d fr (fr ++ vs)) vs ws r r' _ _ HB HJ HN HA HO SI T T').
Qed.
