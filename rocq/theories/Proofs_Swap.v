(** Text rectangles apart from each other change places. *)

From Coq Require Import String Lia.
From Verif Require Import Base Str Multi Color Raster Font Graphic Config Sign Render
  Spec_Multi Spec_Color Spec_Sign Spec_Render Spec_Layout Spec_Draw Spec_Safe Spec_Page Spec_Overlap Spec_Fail Spec_Swap
  Proofs_Str Proofs_Split Proofs_Norm Proofs_Gamut Proofs_Sign Proofs_Iter Proofs_Machine Proofs_Reach Proofs_Pages Proofs_Page
  Proofs_Fail Proofs_Follow Proofs_Cover Proofs_Overlap Proofs_Unique.
From Verif Require Proofs_Each.
Open Scope list_scope.

(** ** Texts as layers *)

Definition LayR {E} (P : Raster rgb -> M (result (Raster rgb) E)) : Prop :=
  forall p q, P p = Val (Ok q) -> exists F, forall p', same_size p p' -> exists q', P p' = Val (Ok q') /\ layer p' q' F.

Lemma layer_trans p q r F G : layer p q F -> layer q r G -> layer p r (fun x y => match G x y with Some c => Some c | None => F x y end).
Proof. intros [S1 H1] [S2 H2]. split; [sizes|]. intros x y. rewrite H2, H1. destruct (G x y); auto. Qed.

Lemma layer_id p : layer p p (fun _ _ => None).
Proof. split; [apply same_size_refl|auto]. Qed.

Lemma bits_lay md x y w h c b bis : forall p xx yy q u v, render_bits md p x y w h c b bis xx yy = Val (q, u, v) ->
  exists F, forall p', same_size p p' -> exists q', render_bits md p' x y w h c b bis xx yy = Val (q', u, v) /\ layer p' q' F.
Proof.
  induction bis as [|i bis IH]; intros p xx yy q u v H; cbn [render_bits] in *.
  - injection H as <- <- <-. exists (fun _ _ => None). intros p' _. exists p'. split; [reflexivity|apply layer_id].
  - apply bind_val in H as (p1 & H1 & H).
    assert (L : exists F, forall p', same_size p p' -> exists q', (if negb (Z.land (Z.shiftr b (7 - i)) 1 =? 0) then
       let! px := chk_i32 md (x + xx) in let! py := chk_i32 md (y + yy) in set_pixel p' px py c else Val p') = Val q' /\ layer p' q' F).
    { destruct (negb _).
      - apply bind_val in H1 as (px & -> & H1). apply bind_val in H1 as (py & -> & H1). cbn [bind].
        destruct (lay_pixel (fun _ _ => True) px py c I p p1 H1) as (F & _ & HF). eauto.
      - exists (fun _ _ => None). intros p' _. exists p'. split; [reflexivity|apply layer_id]. }
    destruct L as (F & HF). destruct (HF p (same_size_refl p)) as (p1' & E1 & L1). rewrite H1 in E1. injection E1 as <-.
    cbv zeta in *.
    assert (REST : forall (K : Raster rgb -> M (Raster rgb * Z * Z)), K p1 = Val (q, u, v) ->
      (exists G, forall p', same_size p1 p' -> exists q', K p' = Val (q', u, v) /\ layer p' q' G) ->
      exists F0, forall p', same_size p p' -> exists q', bind (if negb (Z.land (Z.shiftr b (7 - i)) 1 =? 0) then
         let! px := chk_i32 md (x + xx) in let! py := chk_i32 md (y + yy) in set_pixel p' px py c else Val p') K = Val (q', u, v) /\ layer p' q' F0).
    { intros K HK (G & HG). eexists. intros p' SP. destruct (HF p' SP) as (p2 & E2 & L2). rewrite E2. cbn [bind].
      destruct (HG p2) as (q' & E3 & L3); [destruct L1, L2; sizes|]. exists q'. split; [exact E3|]. eapply layer_trans; eauto. }
    apply REST; auto. destruct (w <=? xx + 1); [|eauto].
    apply bind_val in H as (yy1 & -> & H). cbn [bind]. destruct (h <=? yy1); [|eauto].
    injection H as <- <- <-. exists (fun _ _ => None). intros p' _. exists p'. split; [reflexivity|apply layer_id].
Qed.

Lemma bytes_lay md x y w h c bs : forall p xx yy q, render_bytes md p x y w h c bs xx yy = Val q ->
  exists F, forall p', same_size p p' -> exists q', render_bytes md p' x y w h c bs xx yy = Val q' /\ layer p' q' F.
Proof.
  induction bs as [|b bs IH]; intros p xx yy q H; cbn [render_bytes] in *.
  - injection H as <-. exists (fun _ _ => None). intros p' _. exists p'. split; [reflexivity|apply layer_id].
  - apply bind_val in H as ([[p1 x1] y1] & H1 & H). destruct (bits_lay _ _ _ _ _ _ _ _ _ _ _ _ _ _ H1) as (F & HF).
    destruct (IH _ _ _ _ H) as (G & HG). eexists. intros p' SP. destruct (HF p' SP) as (p2 & -> & L2). cbn [bind].
    destruct (HF p (same_size_refl p)) as (p1' & E1 & L1). rewrite H1 in E1. assert (p1' = p1) by congruence. subst p1'.
    destruct (HG p2) as (q' & E3 & L3); [destruct L1, L2; sizes|]. exists q'. split; [exact E3|]. eapply layer_trans; eauto.
Qed.

Lemma text_loop_lay md f cs c x y t : forall xx, LayR (fun p => render_text_loop md f p t x y cs c xx).
Proof.
  induction t as [|ch t IH]; intros xx p q H; cbn [render_text_loop] in *.
  - injection H as <-. exists (fun _ _ => None). intros p' _. exists p'. split; [reflexivity|apply layer_id].
  - destruct (character f ch) as [k|]; [|discriminate H].
    apply bind_val in H as (x1 & E1 & H). rewrite E1. cbn [bind]. apply bind_val in H as (px & E2 & H). rewrite E2. cbn [bind].
    apply bind_val in H as (p1 & H1 & H). destruct (bytes_lay _ _ _ _ _ _ _ _ _ _ _ H1) as (F & HF).
    apply bind_val in H as (x2 & E3 & H). rewrite E3. destruct (IH x2 p1 q H) as (G & HG).
    eexists. intros p' SP. destruct (HF p' SP) as (p2 & E4 & L2). unfold render_char in *. rewrite E4. cbn [bind].
    destruct (HF p (same_size_refl p)) as (p1' & E5 & L1). rewrite H1 in E5. assert (p1' = p1) by congruence. subst p1'.
    destruct (HG p2) as (q' & E6 & L3); [destruct L1, L2; sizes|]. exists q'. split; [exact E6|]. eapply layer_trans; eauto.
Qed.

Lemma spans_lay md d all todo : LayR (fun p => render_spans_loop md d all todo p).
Proof.
  induction todo as [|s todo IH]; intros p q H; cbn [render_spans_loop] in *.
  - injection H as <-. exists (fun _ _ => None). intros p' _. exists p'. split; [reflexivity|apply layer_id].
  - apply try_ok in H as (x & -> & H). apply try_ok in H as (y & -> & H). apply try_ok in H as (f & E & H). rewrite E. cbn [try].
    apply try_ok in H as (p1 & E1 & H). unfold span_render_text, font_render_text in *. apply map_err_ok in E1.
    destruct (text_loop_lay md f _ _ x y _ _ _ _ E1) as (F & HF). destruct (IH p1 q H) as (G & HG).
    destruct (HF p (same_size_refl p)) as (p1' & E5 & L1). rewrite E1 in E5. assert (p1' = p1) by congruence. subst p1'.
    eexists. intros p' SP. destruct (HF p' SP) as (p2 & E4 & L2). rewrite E4. cbn [map_err bind try].
    destruct (HG p2) as (q' & E6 & L3); [destruct L1, L2; sizes|]. exists q'. split; [exact E6|]. eapply layer_trans; eauto.
Qed.

Lemma text_spans_lay md d spans : LayR (fun p => render_text_spans md d spans p).
Proof.
  intros p q H. unfold render_text_spans in *. apply try_ok in H as (u & -> & H). cbn [try]. exact (spans_lay md d _ _ p q H).
Qed.

Section Sign.
Variable d : Dms.
Hypothesis HB : Built d.
Hypothesis HU : Usable d.
Hypothesis HF : FontsInCells d.

(** The text of a section paints only in its rectangle. *)
Lemma section_layer c s p q : placed d c -> place_ok c s -> rect_in d (pl_rect c) -> SignSized d p -> Forall span_fields (texts d c [] s) ->
  render_text_spans Debug d (texts d c [] s) p = Val (Ok q) ->
  exists F, (forall x y, F x y <> None -> InRect (pl_rect c) x y)
    /\ forall p', same_size p p' -> exists q', render_text_spans Debug d (texts d c [] s) p' = Val (Ok q') /\ layer p' q' F.
Proof.
  intros HP HO HR SP HS H. destruct (text_spans_lay Debug d _ p q H) as (F & HL). exists F. split; auto.
  intros x y N. destruct (F x y) as [k|] eqn:EF; [|congruence].
  assert (DEC : InRect (pl_rect c) x y \/ ~ InRect (pl_rect c) x y) by (unfold InRect; lia).
  destruct DEC as [|NI]; auto. exfalso.
  set (k' := if match k with (a, _, _) => a =? 0 end then (1, 0, 0) else (0, 0, 0)).
  assert (KK : k' <> k) by (unfold k'; destruct k as [[a b] e]; destruct (Z.eqb_spec a 0); intros [=]; lia).
  set (p' := with_color (r_width p) (r_height p) k').
  assert (SPP : same_size p p') by (split; reflexivity).
  destruct (HL p' SPP) as (q' & E & [_ L]).
  assert (SP' : SignSized d p') by (apply (SignSized_same d p); auto).
  pose proof (text_frame d c s p' q' HU HF HP (text_shown d c s p' q' HB HO HR SP' HS E) x y NI) as EQ.
  rewrite L, EF in EQ. unfold p', with_color in EQ. cbn [r_pixel] in EQ. congruence.
Qed.

(** ** Reading a section *)

Notation rtr po xs := (a_rtr Debug d (rs_new d) po xs).

Definition lb_next (v : Value) (lb : bool) : bool :=
  match v with VText _ | VHexadecimalCharacter _ => false | VNewLine _ => true | _ => lb end.

Lemma rtr_one po v X rs spans lb e : inner v -> rtr po (Val (Ok v) :: X) rs spans lb = Val e -> a_res e = Ok tt ->
  exists rs1 sp, forall X', rtr po (Val (Ok v) :: X') rs spans lb = rtr po X' rs1 sp (lb_next v lb).
Proof.
  intros HI H HR. assert (NE : forall rs st r sp er, Val (mkA rs st r sp (Err er)) <> Val e) by (intros ? ? ? ? ? E; injection E as <-; discriminate HR).
  cbn [a_rtr bind] in *. cbv zeta in *. destruct v; try contradiction; cbn [lb_next]; try (do 2 eexists; intros; reflexivity).
  - destruct (set_foreground _ _ _) as [c0 [w|er]]; [do 2 eexists; intros; reflexivity|now apply NE in H].
  - destruct (is_charb c); [|now apply NE in H]. destruct (chk8 _ _); [|discriminate H|discriminate H]. do 2 eexists; intros; reflexivity.
  - destruct j as [[]|]; try (now apply NE in H); do 2 eexists; intros; reflexivity.
  - destruct j as [[]|]; try (now apply NE in H); destruct (negb _); do 2 eexists; intros; reflexivity.
  - match type of H with (if ?b then Val _ else _) = _ => destruct b end; [now apply NE in H|]. destruct (chk8 _ _); [|discriminate H|discriminate H]. do 2 eexists; intros; reflexivity.
  - destruct (_ && _); [now apply NE in H|]. do 2 eexists; intros; reflexivity.
  - destruct (chk8 _ _); [|discriminate H|discriminate H]. do 2 eexists; intros; reflexivity.
Qed.

Lemma step_at c po v X dn spans e : inner v -> rtr po (Val (Ok v) :: X) (setting d c dn) spans (blank_line dn) = Val e -> a_res e = Ok tt ->
  forall X', rtr po (Val (Ok v) :: X') (setting d c dn) spans (blank_line dn)
    = rtr po X' (setting d c (dn ++ [v])) (spans ++ texts d c dn [v]) (blank_line (dn ++ [v])).
Proof.
  intros HI H HR X'. destruct (rtr_one _ _ _ _ _ _ _ HI H HR) as (rs1 & sp & HS).
  assert (H0 : rtr po [Val (Ok v)] (setting d c dn) spans (blank_line dn) = Val (mkA rs1 (done po) [] sp (Ok tt))) by (rewrite HS; reflexivity).
  apply rtr_step in H0; [|reflexivity|auto]. destruct H0 as (H0 & _).
  cbn [a_rtr] in H0.
  assert (E1 : rs1 = setting d c (dn ++ [v])) by congruence. assert (E2 : sp = spans ++ texts d c dn [v]) by congruence. rewrite HS, E1, E2. f_equal. unfold blank_line. rewrite in_force_snoc. destruct v; reflexivity.
Qed.

Lemma run_at c po X e s : forall dn spans, Forall inner s -> rtr po (okv s ++ X) (setting d c dn) spans (blank_line dn) = Val e -> a_res e = Ok tt ->
  forall X', rtr po (okv s ++ X') (setting d c dn) spans (blank_line dn)
    = rtr po X' (setting d c (dn ++ s)) (spans ++ texts d c dn s) (blank_line (dn ++ s)).
Proof.
  induction s as [|v s IH]; intros dn spans HI H HR X'; [cbn [okv map app texts]; now rewrite !app_nil_r|].
  inversion HI; subst. cbn [okv map app] in *. fold (okv s) in *. pose proof (step_at c po v _ dn spans e H2 H HR) as HS.
  rewrite HS in H |- *. rewrite (IH _ _ H3 H HR X'), (texts_cons d c dn v s), <- !app_assoc. reflexivity.
Qed.

(** ** Settings *)

Lemma alike_refl e u : Alike d e u u.
Proof. unfold Alike. splits; reflexivity. Qed.

Lemma alike_sym e u u' : Alike d e u u' -> Alike d e u' u.
Proof. unfold Alike. intros (A & B & C & D & E & F). splits; auto. Qed.

Lemma alike_trans e u u' u'' : Alike d e u u' -> Alike d e u' u'' -> Alike d e u u''.
Proof. unfold Alike. intros (A & B & C & D & E & F) (A' & B' & C' & D' & E' & F'). splits; congruence. Qed.

Lemma alike_app e u u' s : Alike d e u u' -> Alike d e (u ++ s) (u' ++ s).
Proof.
  unfold Alike, fg_of, font_of, jl_of, jp_of. intros (A & B & C & D & E & F). rewrite !app_assoc, !(Proofs_Each.in_force_app _ (e ++ _)), !(Proofs_Each.in_force_app _ u), !(Proofs_Each.in_force_app _ u').
  rewrite A, B, C, D, E, F. splits; reflexivity.
Qed.

Lemma alike_tr e u r : Alike d e u (u ++ [VTextRectangle r]).
Proof. unfold Alike, fg_of, font_of, jl_of, jp_of. rewrite !app_assoc, !in_force_snoc. cbn [says_fg says_font says_jl says_jp says_spacing says_lead]. splits; reflexivity. Qed.

Lemma setting_alike e pg u u' rc : Alike d e u u' -> setting d (mkPlace e pg u rc) [] = setting d (mkPlace e pg u' rc) [].
Proof.
  intros (A & B & C & D & E & F). unfold setting, page_colors. cbn [pl_earlier pl_page pl_upto pl_rect]. rewrite !app_nil_r. rewrite A, B, C, D, E, F. reflexivity.
Qed.

(** States alike but for where text goes. *)
Definition base (rs : RenderState) : RenderState := set_span (set_line (set_rect rs (mkRect 0 0 0 0)) 0) 0.

Lemma base_rect rs rs' q : base rs = base rs' -> set_span (set_line (set_rect rs q) 0) 0 = set_span (set_line (set_rect rs' q) 0) 0.
Proof. destruct rs, rs'. unfold base, set_span, set_line, set_rect. cbn. intros [=]. subst. reflexivity. Qed.

Lemma setting_base c c' s s' : pl_earlier c = pl_earlier c' -> pl_page c = pl_page c' -> Alike d (pl_earlier c) (pl_upto c ++ s) (pl_upto c' ++ s') ->
  base (setting d c s) = base (setting d c' s').
Proof.
  destruct c as [e pg u rc], c' as [e' pg' u' rc']. cbn [pl_earlier pl_page pl_upto]. intros <- <- (A & B & C & D & E & F).
  unfold base, setting, page_colors. cbn [pl_earlier pl_page pl_upto pl_rect]. rewrite <- !app_assoc. rewrite A, B, C, D, E, F. reflexivity.
Qed.

(** ** Pictures *)

Lemma tame_inner v : tame v -> inner v.
Proof. destruct v; cbn; auto. Qed.

Lemma tame_graphics s : Forall tame s -> forall X ctx p q, stops X -> render_graphics_loop Debug d (bare (okv s ++ X)) ctx p = Val (Ok q) ->
  q = p /\ forall X' p', stops X' -> render_graphics_loop Debug d (bare (okv s ++ X')) ctx p' = Val (Ok p').
Proof.
  induction 1 as [|v s HT HS IH]; intros X ctx p q SX H; cbn [okv map app] in *.
  - split; [symmetry; eapply stops_graphics; eauto|]. intros X' p' SX'. destruct X' as [|x X']; [reflexivity|]. destruct SX' as (w & -> & N).
    destruct w; try (exfalso; apply N; exact I); reflexivity.
  - fold (okv s) in *. destruct v; try contradiction HT; cbn [bare map render_graphics_loop try] in *; try discriminate H; fold (bare (okv s ++ X)) in *;
      try (destruct (IH _ _ _ _ SX H) as [E1 E2]; split; [exact E1|intros X' p' SX'; exact (E2 X' p' SX')]).
    destruct (set_foreground _ _ _) as [c0 [u|er]]; cbn [try] in *; [|discriminate H].
    destruct (IH _ _ _ _ SX H) as [E1 E2]; split; [exact E1|intros X' p' SX'; exact (E2 X' p' SX')].
Qed.

(** ** Text rectangles *)

Lemma tr_good r q : rect_ok r -> update_text_rectangle Debug d (rs_new d) r = Val (Some q) ->
  GoodTextRect d r /\ q = tr_rect d r /\ forall r', rect_ok r' -> GoodTextRect d r' -> update_text_rectangle Debug d (rs_new d) r' = Val (Some (tr_rect d r')).
Proof.
  intros HR H. destruct (good_rect d r q HB HR H) as [G ->]. splits; auto. intros r' HR' G'.
  destruct (text_rect_out d r HB HR) as [(M & _)|[(_ & N & _)|(_ & E & _)]]; [|contradiction|congruence].
  destruct (text_rect_out d r' HB HR') as [(_ & _ & E)|[(_ & N & _)|(N & _)]]; [exact E|contradiction|].
  exfalso. apply N. destruct M as (_ & M1 & M2). split; auto. destruct G' as (G1 & G2 & G3 & _). destruct HR' as (R1 & R2 & R3 & R4). unfold u16 in *.
  unfold edges_fit, rect_on in *. cbn [rx ry rwidth rheight] in *. destruct (Z.eqb_spec (rwidth r') 0), (Z.eqb_spec (rheight r') 0); lia.
Qed.

(** ** The states of the two messages *)

Fixpoint till (vs : list Value) : list Value :=
  match vs with [] => [] | VNewPage :: _ => [] | v :: r => v :: till r end.

Definition Here (c : Place) : Prop := place_ok c [] /\ rect_in d (pl_rect c) /\ placed d c.

Definition PageSame (p q : AP) : Prop :=
  ap_state p = ap_state q /\ base (ap_rs p) = base (ap_rs q)
  /\ (rs_rect (ap_rs p) = rs_rect (ap_rs q) \/ ap_state p = PsOn true \/ ap_state p = PsDone)
  /\ exists e vs ws, ap_rest p = okv vs /\ ap_rest q = okv ws /\ Swapped d e [] vs ws /\ come d e (ap_rs p)
       /\ Forall value_ok e /\ Forall value_ok vs.

Definition first_place (e pg u : list Value) (r : Rectangle) : Place := mkPlace e pg (u ++ [VTextRectangle r]) (tr_rect d r).
Definition second_place (e pg u : list Value) (r : Rectangle) (s : list Value) (r' : Rectangle) : Place :=
  mkPlace e pg (u ++ VTextRectangle r :: s ++ [VTextRectangle r']) (tr_rect d r').

Inductive LR (p q : AP) : Prop :=
| LR_same c vs ws : ap_state p = PsOn false -> ap_state q = PsOn false -> ap_rs p = setting d c [] -> ap_rs q = setting d c [] ->
    ap_rest p = okv vs -> ap_rest q = okv ws -> Swapped d (pl_earlier c) (pl_upto c) vs ws -> pl_page c = pl_upto c ++ till vs ->
    Here c -> Forall value_ok vs -> LR p q
| LR_cross e pg u r r' s s' vs ws : ap_state p = PsOn false -> ap_state q = PsOn false ->
    ap_rs p = setting d (first_place e pg u r) [] -> ap_rs q = setting d (second_place e pg u r s r') [] ->
    ap_rest p = okv (s ++ VTextRectangle r' :: s' ++ vs) -> ap_rest q = okv (s' ++ VTextRectangle r :: s ++ ws) ->
    Forall tame s -> Forall tame s' -> Alike d e u (u ++ s) -> Alike d e u (u ++ s') -> RectsApart d r r' ->
    next_rect vs \/ page_end vs /\ snd (times_of d (e ++ u)) = 0 ->
    Swapped d e (u ++ VTextRectangle r :: s ++ VTextRectangle r' :: s') vs ws ->
    update_text_rectangle Debug d (rs_new d) r = Val (Some (tr_rect d r)) ->
    update_text_rectangle Debug d (rs_new d) r' = Val (Some (tr_rect d r')) ->
    pg = u ++ VTextRectangle r :: s ++ VTextRectangle r' :: s' ++ till vs ->
    Here (first_place e pg u r) -> Here (second_place e pg u r s r') -> Forall value_ok (s ++ VTextRectangle r' :: s' ++ vs) -> LR p q
| LR_stop : ap_state p <> PsOn false -> PageSame p q -> LR p q.

Lemma alike_sec e u s r : Alike d e u (u ++ s) -> Alike d e u (u ++ VTextRectangle r :: s).
Proof.
  intros H. eapply alike_trans; [exact H|]. replace (u ++ VTextRectangle r :: s) with ((u ++ [VTextRectangle r]) ++ s) by (now rewrite <- app_assoc).
  apply alike_app, alike_tr.
Qed.

Lemma here_tr c u r : place_ok c [] -> Forall value_ok u -> GoodTextRect d r -> rect_ok r -> Here (mkPlace (pl_earlier c) (pl_page c) u (tr_rect d r)).
Proof.
  intros (A & B & C & D) V G R. split; [unfold place_ok; cbn; splits; auto|]. split; [now apply rect_in_good|]. right. exists r. split; auto.
Qed.

Lemma till_tame s vs : Forall tame s -> till (s ++ vs) = s ++ till vs.
Proof. induction 1 as [|v s H HS IH]; [reflexivity|]. destruct v; try contradiction H; cbn [app till]; now rewrite IH. Qed.

(** Where a section ends. *)
Lemma ending c dn vs ws po rs' spans spans' lb lb' e :
  Swapped d (pl_earlier c) (pl_upto c ++ dn) vs ws -> next_rect vs \/ page_end vs -> base (setting d c dn) = base rs' ->
  rs_rect (setting d c dn) = rs_rect rs' \/ next_rect vs \/ po = false ->
  pl_page c = pl_upto c ++ dn ++ till vs -> place_ok c dn -> Forall value_ok vs ->
  rtr po (okv vs) (setting d c dn) spans lb = Val e -> a_res e = Ok tt ->
  exists e', rtr po (okv ws) rs' spans' lb' = Val e' /\ a_res e' = Ok tt /\ a_spans e = spans /\ a_spans e' = spans'
    /\ LR (mkAP (a_rs e) (a_state e) (a_rest e)) (mkAP (a_rs e') (a_state e') (a_rest e')).
Proof.
  intros HS HE HBs HT HP HO HV H HR.
  remember (pl_earlier c) as e0 eqn:EE. remember (pl_upto c ++ dn) as u0 eqn:EU.
  destruct HS as [e1 u1|e1 u1 v vs ws NV HS|e1 u1 vs ws HS|e1 u1 r r' s s' vs ws T1 T2 A1 A2 RA NX HS]; subst e1 u1.
  - cbn [okv map a_rtr] in *. assert (EQ : e = mkA (setting d c dn) (done po) [] spans (Ok tt)) by (injection H as <-; reflexivity). subst e. eexists. splits; [reflexivity|reflexivity|reflexivity|reflexivity|].
    cbn [a_rs a_state a_rest]. apply LR_stop; [cbn; apply done_on|]. unfold PageSame. cbn [ap_rs ap_state ap_rest]. splits; auto.
    + destruct HT as [HT|[(r & rest & E)|HT]]; [now left|discriminate E|]. right; right. rewrite HT. reflexivity.
    + exists (pl_earlier c ++ pl_page c), [], []. cbn [till] in HP. rewrite app_nil_r in HP. destruct HO as (O1 & O2 & O3 & O4). splits; auto; [constructor| |apply Forall_app; auto].
      exists c, dn. splits; auto. rewrite HP, app_assoc. reflexivity.
  - assert (exists r, v = VTextRectangle r) as (r & ->).
    { destruct HE as [(r & rest & E)|[E|(rest & E)]]; [injection E as -> _; eauto|discriminate E|injection E as -> _; contradiction]. }
    inversion HV as [|? ? V1 V2]; subst.
    cbn [okv map a_rtr bind] in *. fold (okv vs) (okv ws) in *. apply bind_val in H as (o & HUT & H).
    destruct o as [q|]; [|exfalso; injection H as <-; discriminate HR].
    destruct (tr_good r q V1 HUT) as (G & -> & _). rewrite HUT. cbn [bind].
    assert (EQ : e = mkA (set_span (set_line (set_rect (setting d c dn) (tr_rect d r)) 0) 0) (PsOn false) (okv vs) spans (Ok tt)) by (injection H as <-; reflexivity). subst e.
    eexists. splits; [reflexivity|reflexivity|reflexivity|reflexivity|]. cbn [a_rs a_state a_rest].
    rewrite <- (base_rect _ _ _ HBs). rewrite (next_setting d c dn r (tr_rect d r)).
    destruct HO as (O1 & O2 & O3 & O4).
    eapply (LR_same _ _ (mkPlace (pl_earlier c) (pl_page c) (pl_upto c ++ dn ++ [VTextRectangle r]) (tr_rect d r)) vs ws); cbn [ap_state ap_rs ap_rest pl_earlier pl_upto pl_page]; auto.
    + now rewrite app_assoc.
    + rewrite HP. cbn [till]. rewrite <- !app_assoc. reflexivity.
    + apply here_tr; auto; [unfold place_ok; splits; auto|]. apply Forall_app; split; auto. apply Forall_app; auto.
  - cbn [okv map a_rtr bind] in *. fold (okv vs) (okv ws) in *. assert (EQ : e = mkA (setting d c dn) (new_page po) (okv vs) spans (Ok tt)) by (injection H as <-; reflexivity). subst e.
    eexists. splits; [reflexivity|reflexivity|reflexivity|reflexivity|].
    cbn [a_rs a_state a_rest]. apply LR_stop; [cbn; apply new_page_on|]. unfold PageSame. cbn [ap_rs ap_state ap_rest]. splits; auto.
    + destruct HT as [HT|[(r & rest & E)|HT]]; [now left|discriminate E|]. right; left. rewrite HT. reflexivity.
    + exists (pl_earlier c ++ pl_upto c ++ dn), vs, ws. cbn [till] in HP. rewrite app_nil_r in HP. destruct HO as (O1 & O2 & O3 & O4). inversion HV; subst. splits; auto.
      * exists c, dn. rewrite HP, app_assoc. splits; auto.
      * apply Forall_app; split; auto. apply Forall_app; auto.
  - inversion HV as [|? ? V1 V2]; subst. assert (V3 := V2). apply Forall_app in V3 as [Vs V3]. inversion V3 as [|? ? Vr V4]; subst.
    cbn [okv map a_rtr bind] in *. fold (okv (s ++ VTextRectangle r' :: s' ++ vs)) (okv (s' ++ VTextRectangle r :: s ++ ws)) in *. apply bind_val in H as (o & HUT & H).
    destruct o as [q|]; [|exfalso; injection H as <-; discriminate HR].
    destruct (tr_good r q V1 HUT) as (G & -> & OTHER). pose proof RA as (_ & G' & _). pose proof (OTHER r' Vr G') as HUT'. rewrite HUT'. cbn [bind].
    assert (EQ : e = mkA (set_span (set_line (set_rect (setting d c dn) (tr_rect d r)) 0) 0) (PsOn false) (okv (s ++ VTextRectangle r' :: s' ++ vs)) spans (Ok tt)) by (injection H as <-; reflexivity). subst e.
    eexists. splits; [reflexivity|reflexivity|reflexivity|reflexivity|]. cbn [a_rs a_state a_rest].
    rewrite <- (base_rect _ _ _ HBs), (next_setting d c dn r (tr_rect d r)), (next_setting d c dn r' (tr_rect d r')).
    destruct HO as (O1 & O2 & O3 & O4).
    eapply (LR_cross _ _ (pl_earlier c) (pl_page c) (pl_upto c ++ dn) r r' s s' vs ws); unfold first_place, second_place; cbn [ap_state ap_rs ap_rest]; auto.
    + now rewrite app_assoc.
    + apply setting_alike. rewrite app_assoc. replace ((pl_upto c ++ dn) ++ VTextRectangle r :: s ++ [VTextRectangle r']) with (((pl_upto c ++ dn) ++ VTextRectangle r :: s) ++ [VTextRectangle r']) by (rewrite <- app_assoc; reflexivity).
      apply alike_app. now apply alike_sec.
    + rewrite HP. cbn [till]. rewrite till_tame by auto. cbn [till]. rewrite till_tame by auto. now rewrite <- !app_assoc.
    + apply here_tr; auto; [unfold place_ok; splits; auto|]. apply Forall_app; split; auto. apply Forall_app; auto.
    + apply here_tr; auto; [unfold place_ok; splits; auto|]. apply Forall_app; split; [apply Forall_app; auto|]. constructor; auto. apply Forall_app; auto.
Qed.

(** A section up to its end. *)
Lemma reading c po e0 u0 vs ws : Swapped d e0 u0 vs ws -> forall dn spans e, e0 = pl_earlier c -> u0 = pl_upto c ++ dn ->
  pl_page c = pl_upto c ++ dn ++ till vs -> place_ok c dn -> Forall value_ok vs ->
  rtr po (okv vs) (setting d c dn) spans (blank_line dn) = Val e -> a_res e = Ok tt ->
  exists e', rtr po (okv ws) (setting d c dn) spans (blank_line dn) = Val e' /\ a_res e' = Ok tt /\ a_spans e = a_spans e'
    /\ LR (mkAP (a_rs e) (a_state e) (a_rest e)) (mkAP (a_rs e') (a_state e') (a_rest e')).
Proof.
  assert (END : forall vs ws dn spans e, Swapped d (pl_earlier c) (pl_upto c ++ dn) vs ws -> next_rect vs \/ page_end vs ->
    pl_page c = pl_upto c ++ dn ++ till vs -> place_ok c dn -> Forall value_ok vs ->
    rtr po (okv vs) (setting d c dn) spans (blank_line dn) = Val e -> a_res e = Ok tt ->
    exists e', rtr po (okv ws) (setting d c dn) spans (blank_line dn) = Val e' /\ a_res e' = Ok tt /\ a_spans e = a_spans e'
      /\ LR (mkAP (a_rs e) (a_state e) (a_rest e)) (mkAP (a_rs e') (a_state e') (a_rest e'))).
  { intros vs0 ws0 dn spans e HS HE HP HO HV H HR.
    destruct (ending c dn vs0 ws0 po (setting d c dn) spans spans (blank_line dn) (blank_line dn) e HS HE eq_refl (or_introl eq_refl) HP HO HV H HR) as (e' & E1 & E2 & E3 & E4 & E5).
    exists e'. splits; auto. congruence. }
  induction 1 as [e1 u1|e1 u1 v vs ws NV HS IH|e1 u1 vs ws HS IH|e1 u1 r r' s s' vs ws T1 T2 A1 A2 RA NX HS IH]; intros dn spans e -> -> HP HO HV H HR.
  - apply (END [] []); auto; [constructor|right; now left].
  - assert (IC : inner v \/ ~ inner v) by (destruct v; cbn; auto). destruct IC as [IC|IC].
    + inversion HV as [|? ? V1 V2]; subst. cbn [okv map] in *. fold (okv vs) (okv ws) in *. pose proof (step_at c po v _ dn spans e IC H HR) as HST.
      rewrite HST in H |- *. apply IH; auto; [now rewrite app_assoc| |].
      * rewrite HP. destruct v; try contradiction IC; cbn [till]; rewrite <- !app_assoc; reflexivity.
      * destruct HO as (O1 & O2 & O3 & O4). unfold place_ok. splits; auto. apply Forall_app; auto.
    + apply (END (v :: vs) (v :: ws)); auto; [now constructor|]. left. destruct v; try (exfalso; apply IC; exact I); [contradiction|]. unfold next_rect. eauto.
  - apply (END (VNewPage :: vs) (VNewPage :: ws)); auto; [now constructor|]. right. right. eauto.
  - eapply END; eauto; [now constructor|]. left. unfold next_rect. eauto.
Qed.

(** ** Pictures of the two *)

Lemma graphics_swapped e u vs ws : Swapped d e u vs ws -> Forall value_ok vs -> forall ctx p p' q, SignSized d p -> Off Nowhere p p' ->
  render_graphics_loop Debug d (bare (okv vs)) ctx p = Val (Ok q) ->
  exists q', render_graphics_loop Debug d (bare (okv ws)) ctx p' = Val (Ok q') /\ Off Nowhere q q'.
Proof.
  induction 1 as [e u|e u v vs ws NV HS IH|e u vs ws HS IH|e u r r' s s' vs ws T1 T2 A1 A2 RA NX HS IH]; intros HV ctx p p' q SP HO HG.
  - cbn in *. injection HG as <-. eauto.
  - inversion HV as [|? ? V1 V2]; subst. assert (IC : inner v \/ ~ inner v) by (destruct v; cbn; auto). destruct IC as [IC|IC].
    + destruct (loop_step Debug d v vs ctx p q V1 IC SP HG) as (ctx' & p1 & H1 & S1 & HSt). destruct (HSt Nowhere p' HO) as (p1' & O1 & E1). rewrite E1. eauto.
    + destruct v; try (exfalso; apply IC; exact I); cbn in *; injection HG as <-; eauto.
  - cbn in *. injection HG as <-. eauto.
  - cbn in *. injection HG as <-. eauto.
Qed.

(** ** Loops *)

Lemma stops_swapped e u vs ws : Swapped d e u vs ws -> next_rect vs \/ page_end vs -> stops (okv vs) /\ stops (okv ws).
Proof.
  intros H HE. destruct H as [e u|e u v vs ws NV HS|e u vs ws HS|e u r r' s s' vs ws T1 T2 A1 A2 RA NX HS]; cbn.
  - auto.
  - assert (~ inner v). { destruct HE as [(r & rest & E)|[E|(rest & E)]]; [injection E as -> _; auto|discriminate E|injection E as -> _; contradiction]. }
    split; exists v; auto.
  - split; exists VNewPage; auto.
  - split; eexists; split; try reflexivity; auto.
Qed.

Lemma times_tame e u s r s' r' : Forall tame s -> Forall tame s' ->
  times_of d (e ++ u ++ VTextRectangle r :: s ++ VTextRectangle r' :: s') = times_of d (e ++ u).
Proof.
  intros H1 H2. rewrite app_assoc. unfold times_of. rewrite (Proofs_Each.in_force_app _ (e ++ u)). generalize (in_force (says_times d) (default_page_on_time (d_multi_cfg d), default_page_off_time (d_multi_cfg d)) (e ++ u)).
  assert (T : forall l, Forall tame l -> forall x, in_force (says_times d) x l = x).
  { induction 1 as [|v l HT HL IH]; intros x; [reflexivity|]. cbn [in_force]. destruct v; try contradiction HT; apply IH. }
  intros x. cbn [in_force says_times]. rewrite Proofs_Each.in_force_app, (T s H1). cbn [in_force says_times]. now apply T.
Qed.

Lemma section_run c s X po e : Here c -> Forall value_ok s -> Forall tame s -> rtr po (okv s ++ X) (setting d c []) [] true = Val e -> a_res e = Ok tt ->
  Forall span_fields (texts d c [] s)
  /\ forall X', rtr po (okv s ++ X') (setting d c []) [] true = rtr po X' (setting d c s) (texts d c [] s) (blank_line s).
Proof.
  intros (HP & _) HV HT H HR. assert (HI : Forall inner s) by (eapply Forall_impl; [|exact HT]; apply tame_inner). change true with (blank_line []) in *. split.
  - eapply (rtr_run d c po X e s [] []); eauto.
    + destruct HP as (A & B & C & D). unfold place_ok. splits; auto.
    + unfold counts_ok. cbn. unfold u8. lia.
  - intros X'. exact (run_at c po X e s [] [] HI H HR X').
Qed.

Lemma stops_tr r X : stops (Val (Ok (VTextRectangle r)) :: X).
Proof. exists (VTextRectangle r). split; [reflexivity|]. intros []. Qed.

Lemma loop_swapped fuel : forall n p q a b p1 a1, LR p q -> SignSized d a -> Off Nowhere a b ->
  a_page_loop Debug d fuel n p a = Val (p1, Ok a1) ->
  exists q1 b1, a_page_loop Debug d fuel n q b = Val (q1, Ok b1) /\ PageSame p1 q1 /\ Off Nowhere a1 b1.
Proof.
  induction fuel as [fuel IH] using (well_founded_induction Wf_nat.lt_wf). intros n p q a b p1 a1 HL SP HO H.
  destruct fuel as [|f]; [discriminate H|].
  destruct HL as [c vs ws S1 S2 R1 R2 E1 E2 HS HPg (HP & HRI & HPL) HV|e pg u r r' s s' vs ws S1 S2 R1 R2 E1 E2 T1 T2 A1 A2 RA NX HS U1 U2 HPg H1 H2 HV|NS HPS].
  - cbn [a_page_loop] in *. rewrite S1 in H. rewrite S2. rewrite E1, R1 in H. rewrite E2, R2.
    apply bind_val in H as (g & HG & H). destruct g as [a2|er]; [|discriminate H].
    destruct (graphics_swapped _ _ _ _ HS HV _ a b a2 SP HO HG) as (b2 & HG' & HO2). rewrite HG'. cbn [bind].
    apply bind_val in H as ([p2 x] & HT & H). destruct x as [a3|er]; [|discriminate H].
    unfold a_text_rect in HT |- *. rewrite E1, R1 in HT. rewrite E2, R2.
    apply bind_val in HT as (ee & He & HT). destruct (a_res ee) as [[]|er] eqn:ER; [|discriminate HT].
    destruct (reading c _ _ _ vs ws HS [] [] ee eq_refl (eq_sym (app_nil_r _)) HPg HP HV He ER) as (e' & He' & ER' & ES & HLR).
    change (blank_line []) with true in He'. rewrite He'. cbn [bind]. rewrite ER', <- ES.
    apply bind_val in HT as (y & Hy & HT). injection HT as <- ->.
    destruct (text_spans_redrawn Debug d _ _ _ _ HO2 Hy) as (b3 & Hy' & HO3). rewrite Hy'. cbn [bind].
    destruct (MAX_TEXT_RECTANGLES <? n + 1); [discriminate H|].
    apply (IH f (Nat.lt_succ_diag_r f) (n + 1) (mkAP (a_rs ee) (a_state ee) (a_rest ee)) _ a3 b3 p1 a1); auto.
    eapply SignSized_same; [|exact SP]. apply graphics_size in HG. apply text_spans_size in Hy. eapply same_size_trans; eauto.
  - set (c := first_place e pg u r) in *. set (c' := second_place e pg u r s r') in *.
    assert (V3 := HV). apply Forall_app in V3 as [Vs V3]. inversion V3 as [|? ? Vr V4]; subst. apply Forall_app in V4 as [Vs' Vv].
    rewrite okv_app in E1, E2. cbn [okv map] in E1, E2. fold (okv (s' ++ vs)) in E1. fold (okv (s ++ ws)) in E2.
    destruct (stops_swapped _ _ _ _ HS) as [ST1 ST2]; [tauto|].
    (* the first rectangle of the first message *)
    cbn [a_page_loop] in H. rewrite S1, E1, R1 in H.
    apply bind_val in H as (g & HG & H). destruct g as [a2|er]; [|discriminate H].
    destruct (tame_graphics s T1 _ _ _ _ (stops_tr r' _) HG) as [-> GS].
    apply bind_val in H as ([p2 x] & HT & H). destruct x as [a3|er]; [|discriminate H].
    unfold a_text_rect in HT. rewrite E1, R1 in HT.
    apply bind_val in HT as (ee & He & HT). destruct (a_res ee) as [[]|er] eqn:ER; [|discriminate HT].
    destruct (section_run c s _ _ ee H1 Vs T1 He ER) as [SF RS]. rewrite RS in He. cbn [a_rtr bind] in He. rewrite U2 in He. cbn [bind] in He.
    injection He as <-. cbn [a_rs a_state a_rest a_spans] in HT. 
    apply bind_val in HT as (y & Hy & HT). injection HT as <- ->. cbv zeta in H.
    destruct (MAX_TEXT_RECTANGLES <? n + 1) eqn:EM1; [discriminate H|].
    destruct (section_layer c s a a3) as (F & F1 & F2); auto; try apply H1.
    { destruct H1 as ((? & ? & ? & ?) & _). unfold place_ok. splits; auto. }
    destruct (F2 a (same_size_refl a)) as (a3' & Ea & LA). rewrite Hy in Ea. assert (a3' = a3) by congruence. subst a3'.
    assert (SP3 : SignSized d a3) by (apply (SignSized_same d a); auto; apply LA).
    (* the second *)
    destruct f as [|f]; [discriminate H|].
    assert (EN : set_span (set_line (set_rect (setting d c s) (tr_rect d r')) 0) 0 = setting d c' []).
    { rewrite (next_setting d c s r'). unfold c, c', first_place, second_place. cbn [pl_earlier pl_page pl_upto]. now rewrite <- !app_assoc. }
    rewrite EN in H. cbn [a_page_loop ap_state ap_rest ap_rs] in H. rewrite okv_app in H.
    apply bind_val in H as (g & HG2 & H). destruct g as [a4|er]; [|discriminate H].
    destruct (tame_graphics s' T2 _ _ _ _ ST1 HG2) as [-> GS'].
    apply bind_val in H as ([p3 x] & HT & H). destruct x as [a5|er]; [|discriminate H].
    unfold a_text_rect in HT. cbn [ap_rs ap_rest] in HT.
    apply bind_val in HT as (e2 & He & HT). destruct (a_res e2) as [[]|er] eqn:ER2; [|discriminate HT].
    destruct (section_run c' s' _ _ e2 H2 Vs' T2 He ER2) as [SF' RS']. rewrite RS' in He.
    apply bind_val in HT as (y & Hy2 & HT). injection HT as <- ->. cbv zeta in H.
    destruct (MAX_TEXT_RECTANGLES <? n + 1 + 1) eqn:EM2; [discriminate H|].
    set (po := 0 <? rs_off_time (setting d c [])) in *. change (0 <? rs_off_time (setting d c' [])) with po in *.
    assert (AL : Alike d e (pl_upto c' ++ s') (pl_upto c ++ s)).
    { unfold c, c', first_place, second_place. cbn [pl_upto]. apply alike_trans with u.
      - apply alike_sym. replace ((u ++ VTextRectangle r :: s ++ [VTextRectangle r']) ++ s') with ((u ++ VTextRectangle r :: s) ++ VTextRectangle r' :: s') by (rewrite <- !app_assoc; cbn [app]; now rewrite <- app_assoc).
        eapply alike_trans; [apply alike_sec; exact A2|]. apply alike_app. now apply alike_sec.
      - rewrite <- app_assoc. now apply alike_sec. }
    assert (POF : next_rect vs \/ po = false).
    { destruct NX as [NX|[NX NT]]; [now left|right]. unfold po. 
      change (rs_off_time (setting d c [])) with (snd (times_of d (e ++ (u ++ VTextRectangle r :: s ++ VTextRectangle r' :: s' ++ till vs)))).
      assert (ET : till vs = []) by (destruct NX as [->|(rest & ->)]; reflexivity). rewrite ET, app_nil_r, times_tame, NT by auto. reflexivity. }
    destruct (ending c' s' vs ws po (setting d c s) (texts d c' [] s') (texts d c [] s) (blank_line s') (blank_line s) e2) as (e' & He' & ER' & ES1 & ES2 & HLR); auto.
    { unfold c', second_place. cbn [pl_earlier pl_upto]. rewrite <- !app_assoc. cbn [app]. rewrite <- !app_assoc. exact HS. }
    { tauto. }
    { now apply setting_base. }
    { unfold c', second_place. cbn [pl_page pl_upto]. rewrite <- !app_assoc. cbn [app]. rewrite <- !app_assoc. reflexivity. }
    { destruct H2 as ((? & ? & ? & ?) & _). unfold place_ok. splits; auto. }
    rewrite ES1 in Hy2.
    destruct (section_layer c' s' a3 a5) as (G & G1 & G2); auto; try apply H2.
    { destruct H2 as ((? & ? & ? & ?) & _). unfold place_ok. splits; auto. }
    destruct (G2 a3 (same_size_refl a3)) as (a5' & Ea5 & LA5). rewrite Hy2 in Ea5. assert (a5' = a5) by congruence. subst a5'.
    (* the second message *)
    destruct (G2 b) as (b3 & Eb3 & LB3); [destruct LA, HO; sizes|].
    destruct (F2 b3) as (b5 & Eb5 & LB5); [destruct LB3, HO; sizes|].
    cbn [a_page_loop]. rewrite S2, E2, R2. rewrite (GS' (Val (Ok (VTextRectangle r)) :: okv (s ++ ws)) b (stops_tr r _)). cbn [bind].
    unfold a_text_rect at 1. rewrite E2, R2, RS'. cbn [a_rtr bind]. rewrite U1. cbn [bind a_res a_spans a_rs a_state a_rest].
    rewrite Eb3. cbn [bind]. cbv zeta. rewrite EM1.
    assert (EN' : set_span (set_line (set_rect (setting d c' s') (tr_rect d r)) 0) 0 = setting d c []).
    { rewrite (next_setting d c' s' r). change (pl_earlier c') with e. unfold c, first_place. apply setting_alike.
      eapply alike_trans; [rewrite app_assoc; apply alike_sym, alike_tr|]. eapply alike_trans; [exact AL|]. unfold c, first_place. cbn [pl_upto]. rewrite <- app_assoc.
      apply alike_trans with u; [apply alike_sym; now apply alike_sec|apply alike_tr]. }
    rewrite EN'. cbn [ap_state ap_rest ap_rs]. rewrite okv_app, (GS (okv ws) b3 ST2). cbn [bind].
    unfold a_text_rect. cbn [ap_rs ap_rest]. fold po. rewrite RS, He'. cbn [bind]. rewrite ER', ES2, Eb5. cbn [bind]. rewrite EM2.
    apply (IH f (Nat.lt_lt_succ_r _ _ (Nat.lt_succ_diag_r f)) (n + 1 + 1) (mkAP (a_rs e2) (a_state e2) (a_rest e2)) _ a5 b5 p1 a1); auto.
    + apply (SignSized_same d a3); auto. apply LA5.
    + destruct HO as [O1 O2], LA as [B1 B2], LA5 as [C1 C2], LB3 as [D1 D2], LB5 as [I1 I2]. split; [sizes|]. intros x y N.
      rewrite C2, B2, I2, D2, (O2 x y N). specialize (F1 x y). specialize (G1 x y).
      destruct (F x y), (G x y); auto. exfalso. destruct RA as (_ & _ & RA). apply (RA x y). split; [apply F1; discriminate|apply G1; discriminate].
  - rewrite a_page_loop_stop in H by auto. injection H as <- <-. rewrite a_page_loop_stop by (rewrite <- (proj1 HPS); auto). eauto.
Qed.

(** ** The other passes *)

Lemma check_cons v vs : v <> VNewPage ->
  (check_unsupported d (bare (okv (v :: vs))) = Val (Ok tt) <-> Supports d v /\ check_unsupported d (bare (okv vs)) = Val (Ok tt)).
Proof.
  intros NV. cbn [okv map bare check_unsupported try]. fold (okv vs) (bare (okv vs)). destruct (value_tag v) as [t|] eqn:E.
  - assert (NP : (tag_bit t =? tag_bit TNp) = false).
    { apply not_true_iff_false. intros T. apply tag_bit_np in T. subst t. apply NV. apply Written_np. now apply value_tag_iff. }
    rewrite NP.
    assert (S1 : Supports d v <-> contains_tag (supported_multi_tags (d_multi_cfg d)) t = true).
    { rewrite contains_lists. split; [intros H; apply H; now apply value_tag_iff|]. intros H t' Ht. apply value_tag_iff in Ht. congruence. }
    rewrite S1. destruct (contains_tag _ _); cbn [negb]; split; auto; try (intros [? ?]; auto; congruence); try discriminate.
  - split; [|intros [_ H]; exact H]. intros H. split; [|exact H]. intros t Ht. apply value_tag_iff in Ht. congruence.
Qed.

Lemma check_app l vs : Forall (fun v => v <> VNewPage) l ->
  (check_unsupported d (bare (okv (l ++ vs))) = Val (Ok tt) <-> Forall (Supports d) l /\ check_unsupported d (bare (okv vs)) = Val (Ok tt)).
Proof.
  induction 1 as [|v l H HL IH]; cbn [app]; [split; [auto|tauto]|]. rewrite check_cons by auto. rewrite IH. split.
  - intros (A & B & C). split; auto.
  - intros (A & C). inversion A; subst. auto.
Qed.

Lemma tame_np s : Forall tame s -> Forall (fun v => v <> VNewPage) s.
Proof. intros H. eapply Forall_impl; [|exact H]. intros v T ->. exact T. Qed.

Lemma check_swapped e u vs ws : Swapped d e u vs ws -> check_unsupported d (bare (okv vs)) = Val (Ok tt) -> check_unsupported d (bare (okv ws)) = Val (Ok tt).
Proof.
  induction 1 as [e u|e u v vs ws NV HS IH|e u vs ws HS IH|e u r r' s s' vs ws T1 T2 A1 A2 RA NX HS IH]; auto.
  - rewrite !check_cons by auto. tauto.
  - rewrite !check_cons by discriminate. rewrite !check_app by (now apply tame_np). rewrite !check_cons by discriminate. rewrite !check_app by (now apply tame_np). tauto.
Qed.

Lemma update_tame s vs : Forall tame s -> forall rs, update_page_loop (rs_new d) (bare (okv (s ++ vs))) rs = update_page_loop (rs_new d) (bare (okv vs)) rs.
Proof. induction 1 as [|v s HT HS IH]; intros rs; [reflexivity|]. cbn [app]. rewrite <- IH. destruct v; try contradiction HT; reflexivity. Qed.

Lemma update_swapped e u vs ws : Swapped d e u vs ws -> forall rs,
  update_page_loop (rs_new d) (bare (okv vs)) rs = update_page_loop (rs_new d) (bare (okv ws)) rs.
Proof.
  induction 1 as [e u|e u v vs ws NV HS IH|e u vs ws HS IH|e u r r' s s' vs ws T1 T2 A1 A2 RA NX HS IH]; intros rs; auto.
  - cbn [okv map bare update_page_loop bind]. fold (okv vs) (okv ws). fold (bare (okv vs)) (bare (okv ws)).
    destruct v; auto; destruct (set_background _ _ _) as [c0 [w|er]]; auto.
  - assert (TR : forall r l rs, update_page_loop (rs_new d) (bare (okv (VTextRectangle r :: l))) rs = update_page_loop (rs_new d) (bare (okv l)) rs) by reflexivity.
    rewrite !TR, !update_tame, !TR, !update_tame by auto. apply IH.
Qed.

(** ** Pages *)

Lemma till_split vs : no_page_break (till vs) /\ exists tail, okv vs = okv (till vs) ++ tail /\ (tail = [] \/ exists r, tail = Val (Ok VNewPage) :: r).
Proof.
  induction vs as [|v vs (N & tail & E & T)]; [split; [intros []|]; exists []; auto|].
  destruct v; try (split; [intros [X|X]; [discriminate X|exact (N X)]|]; exists tail; split; [cbn [till okv map app]; f_equal; exact E|exact T]).
  split; [intros []|]. eexists. split; [reflexivity|]. right. eexists. reflexivity.
Qed.

Lemma base_page rs rs' : base rs = base rs' ->
  set_span (set_line (set_line_spacing (set_rect rs (rs_rect (rs_new d))) (rs_line_spacing (rs_new d))) 0) 0
  = set_span (set_line (set_line_spacing (set_rect rs' (rs_rect (rs_new d))) (rs_line_spacing (rs_new d))) 0) 0.
Proof. destruct rs, rs'. unfold base, set_span, set_line, set_rect, set_line_spacing. cbn. intros [=]. subst. reflexivity. Qed.

Lemma on_page_swapped p q p1 P : PageSame p q -> a_on_page Debug d p = Val (p1, Ok P) ->
  exists q1 Q, a_on_page Debug d q = Val (q1, Ok Q) /\ PageSame p1 q1 /\ SamePage P Q.
Proof.
  intros (ES & EB & _ & e & vs & ws & E1 & E2 & HS & HC & VE & VV) H. unfold a_on_page in *. cbv zeta in *. rewrite E1 in H. rewrite E2.
  apply bind_val in H as (k & HK & H). destruct k as [[]|er]; [|discriminate H]. rewrite (check_swapped _ _ _ _ HS HK). cbn [bind].
  apply bind_val in H as ([rs w] & HUp & H). unfold update_page_state in *. cbv zeta in *.
  rewrite <- (update_swapped _ _ _ _ HS), <- (base_page _ _ EB), HUp. cbn [bind].
  destruct w as [[]|er]; [|discriminate H]. apply bind_val in H as ([p2 x] & HL & H). destruct x as [a|er]; [|discriminate H].
  assert (EP : p1 = p2 /\ P = mkPage a (rs_on_time (ap_rs p2))) by (split; congruence). destruct EP as [-> ->]. clear H.
  destruct (till_split vs) as (NP & tail & ET & HT). rewrite ET in HUp. apply update_loop_ok in HUp; auto. destruct HUp as [_ HRS].
  assert (ERS : rs = setting d (mkPlace e (till vs) [] (sign_rect d)) []).
  { rewrite <- (page_start_setting d e (ap_rs p) (till vs) HC). exact HRS. }
  clear HRS. rewrite ERS in *. set (c := mkPlace e (till vs) [] (sign_rect d)) in *.
  assert (VT : Forall value_ok (till vs)).
  { clear - VV. induction VV as [|v vs V VV IH]; [constructor|]. destruct v; cbn [till]; try constructor; auto. }
  assert (A1 : LR (mkAP (setting d c []) (PsOn false) (okv vs)) (mkAP (setting d c []) (PsOn false) (okv ws))).
  { apply (LR_same _ _ c vs ws); auto. split; [unfold place_ok; cbn; splits; auto|]. split; [now apply rect_in_sign|now left]. }
  assert (A2 : SignSized d (build_raster (setting d c []))) by (split; reflexivity).
  assert (A3 : Off Nowhere (build_raster (setting d c [])) (build_raster (setting d c []))) by (split; [apply same_size_refl|auto]).
  destruct (loop_swapped 52 0 _ _ _ _ p2 a A1 A2 A3 HL) as (q1 & b & HL' & HPS & HO).
  rewrite HL'. cbn [bind]. do 2 eexists. split; [reflexivity|]. split; [exact HPS|]. split; [cbn; destruct HPS as (_ & B & _); destruct (ap_rs p2), (ap_rs q1); cbn in B; injection B; auto|].
  now apply off_image.
Qed.

Lemma take_swapped n : forall p q ps, PageSame p q -> a_take Debug d n p = Val (map Ok ps) ->
  exists qs, a_take Debug d n q = Val (map Ok qs) /\ Forall2 SamePage ps qs.
Proof.
  induction n as [|n IH]; intros p q ps HS H; cbn [a_take] in *.
  - exists []. destruct ps; [|discriminate H]. split; [reflexivity|constructor].
  - apply bind_val in H as ([o p1] & HN & H).
    assert (HN' : exists o' q1, a_next Debug d q = Val (o', q1) /\ PageSame p1 q1 /\ match o, o' with
       | Some (Ok P), Some (Ok Q) => SamePage P Q | Some (Err _), _ => True | None, None => True | _, _ => False end \/ exists er, o = Some (Err er)).
    { pose proof HS as (ES & EB & ER & HR). unfold a_next in *. rewrite <- ES. destruct (ap_state p) as [x|x|] eqn:Est.
      - apply bind_val in HN as ([p2 y] & HP & E). injection E as <- <-. destruct y as [P|er]; [|exists None, p; right; eauto].
        destruct (on_page_swapped p q p2 P HS HP) as (q2 & Q & HQ & HS2 & HE). rewrite HQ. do 2 eexists. left. cbn [bind]. splits; [reflexivity|exact HS2|exact HE].
      - injection HN as <- <-. destruct ER as [ER|[ER|ER]]; [|discriminate ER|discriminate ER].
        do 2 eexists. left. splits; [reflexivity|unfold PageSame; cbn [ap_state ap_rs ap_rest]; splits; auto|].
        assert (EBR : build_raster (ap_rs p) = build_raster (ap_rs q) /\ rs_off_time (ap_rs p) = rs_off_time (ap_rs q)).
        { destruct (ap_rs p), (ap_rs q). unfold base, set_span, set_line, set_rect in EB. cbn in *. injection EB as -> -> -> _ _ _ _ _ _. now subst. }
        destruct EBR as [-> ->]. split; [reflexivity|]. apply off_image. split; [apply same_size_refl|auto].
      - injection HN as <- <-. do 2 eexists. left. splits; [reflexivity|exact HS|exact I]. }
    destruct HN' as (o' & q1 & [(HN' & HS' & HE)|(er & ->)]).
    + rewrite HN'. cbn [bind]. destruct o as [x|].
      * apply bind_val in H as (l & Hl & E). destruct ps as [|P ps]; [discriminate E|]. injection E as -> ->.
        destruct o' as [[Q|er]|]; try contradiction. destruct (IH p1 q1 ps HS' Hl) as (qs & Hq & HFa). rewrite Hq. cbn [bind].
        exists (Q :: qs). split; [reflexivity|now constructor].
      * destruct o' as [|]; [contradiction|]. destruct ps; [|discriminate H]. exists []. split; [reflexivity|constructor].
    + cbn [bind] in H. apply bind_val in H as (l & Hl & E). destruct ps; discriminate E.
Qed.

End Sign.

Lemma swapped d ms ms' vs ws n ps : Built d -> Usable d -> FontsInCells d -> Meaning ms (map Ok vs) -> Meaning ms' (map Ok ws) -> Swapped d [] [] vs ws ->
  pages_take Debug d n (pages_new d ms) = Val (map Ok ps) ->
  exists qs, pages_take Debug d n (pages_new d ms') = Val (map Ok qs) /\ Forall2 SamePage ps qs.
Proof.
  intros HB HU HF HM HM' HS H. destruct (Tokens_exists ms) as (ts & HT). destruct (Tokens_exists ms') as (ts' & HT').
  rewrite !(take_start Debug d _ ms _ (Reads_new _ _ HT)) in *. rewrite !(take_start Debug d _ ms' _ (Reads_new _ _ HT')) in *.
  rewrite (meaning_okv ms vs ts HT HM) in *. rewrite (meaning_okv ms' ws ts' HT' HM') in *.
  eapply (take_swapped d HB HU HF); [|exact H]. unfold PageSame, a_start. cbn [ap_rs ap_state ap_rest]. splits; auto.
  exists [], vs, ws. splits; auto; [apply come_new|]. eapply Meaning_oks_ok; eauto.
Qed.

Lemma samepages_length ps qs : Forall2 SamePage ps qs -> List.length ps = List.length qs.
Proof. induction 1; cbn; congruence. Qed.

Lemma swapped_whole md d ms ms' vs ws ps : Built d -> Usable d -> FontsInCells d -> Meaning ms (map Ok vs) -> Meaning ms' (map Ok ws) -> Swapped d [] [] vs ws ->
  (md = Release -> ~ Wraps d ms) -> Yields md d ms (map Ok ps) ->
  exists qs, Yields md d ms' (map Ok qs) /\ Forall2 SamePage ps qs.
Proof.
  intros HB HU HF HM HM' HS HN HY. apply (yields_debug d ms md ps HB HN) in HY as (n & H & L).
  destruct (swapped d ms ms' vs ws n ps HB HU HF HM HM' HS H) as (qs & H' & HE). exists qs. split; [|exact HE].
  apply yields_modes. exists n. split; [exact H'|]. rewrite map_length in *. now rewrite <- (samepages_length _ _ HE).
Qed.
