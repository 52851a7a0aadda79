(** What the text, graphics and rectangles of a message cover. *)

From Coq Require Import String ZifyBool ZifyNat.
From Verif Require Import Base Str Multi Color Raster Font Graphic Config Sign Render
  Spec_Multi Spec_Color Spec_Font Spec_Tfon Spec_Graphic Spec_Sign Spec_Render Spec_Layout Spec_Page
  Proofs_Str Proofs_Font Proofs_Glyph Proofs_Iter Proofs_Color Proofs_Sign Proofs_Machine Proofs_Pages Proofs_Count
  Proofs_Render Proofs_Norm Proofs_Build Proofs_Horiz Proofs_Vert Proofs_Layout Proofs_Place Proofs_Each Proofs_Page
  Proofs_Orderly.
Open Scope list_scope.
Ltac Zify.zify_post_hook ::= Z.div_mod_to_equations.

(** The text rectangle of a place is the sign or one accepted by [tr]. *)
Definition placed (d : Dms) (c : Place) : Prop :=
  pl_rect c = sign_rect d
  \/ exists r, GoodTextRect d r
       /\ pl_rect c = rect_on (sign_width_pixels (d_vms_cfg d)) (sign_height_pixels (d_vms_cfg d)) r.

Lemma Rendered_impl d (T U : Place -> list Value -> Raster rgb -> Raster rgb -> Prop) c vs p q :
  (forall c vs p q, placed d c -> T c vs p q -> U c vs p q) -> placed d c ->
  Rendered d T c vs p q -> Rendered d U c vs p q.
Proof.
  intros H. intros HP HR. induction HR as [c vs p q q' H1 H2 H3|c vs r rest p q q' q'' H1 H2 H3 H4 H5 IH].
  - eapply Rd_last; eauto.
  - eapply Rd_rect; eauto. apply IH. right. exists r. auto.
Qed.

Lemma shown_impl d (T U : Place -> list Value -> Raster rgb -> Raster rgb -> Prop) ms ps :
  (forall c vs p q, placed d c -> T c vs p q -> U c vs p q) ->
  PagesShow d (PageShown d T) ms ps -> PagesShow d (PageShown d U) ms ps.
Proof.
  intros H. apply PagesShow_impl. intros b pg q. apply Rendered_impl; auto. now left.
Qed.

Lemma boundary_0 s : on_boundary s 0.
Proof. right. exists 0. lia. Qed.

Lemma keeps_cells d c s : FontsInCells d -> placed d c -> s_rect s = pl_rect c ->
  rs_font (span_state s) <> 0 \/ rs_font (span_state s) = default_font (d_multi_cfg d) -> KeepsCells d s.
Proof.
  intros HF HP ER EN. unfold KeepsCells. rewrite ER.
  assert (on_boundary (char_width_pixels (d_vms_cfg d)) (rx (pl_rect c) - 1)
          /\ on_boundary (char_height_pixels (d_vms_cfg d)) (ry (pl_rect c) - 1)) as [B1 B2].
  { destruct HP as [->|(r & HG & ->)]; [split; apply boundary_0|].
    destruct HG as (_ & _ & _ & G1 & _ & G2 & _). auto. }
  splits; auto. intros _. split; auto. intros h (f & Hf & ->). apply HF.
  - eapply FontOf_In; eauto.
  - destruct Hf as [[Hf _] _]. unfold used_font. lia.
Qed.

Lemma text_frame d c vs p q : Usable d -> FontsInCells d -> placed d c -> TextsShown d c vs p q ->
  forall x y, ~ InRect (pl_rect c) x y -> r_pixel q x y = r_pixel p x y.
Proof.
  intros HU HF HP [_ _ HN _ HL _] x y N. destruct (HL x y) as [E|(s & f & cs & a & b & I & _ & _ & _ & K)]; auto.
  exfalso. apply N, K; [|now apply font_sound, HN]. apply (keeps_cells d c); auto. now apply (texts_rect d c vs []).
Qed.

Lemma pages_inside d ms ps : Built d -> Usable d -> FontsInCells d -> Yields Debug d ms (map Ok ps) ->
  PagesShow d (PageShown d (fun c vs p q =>
    forall x y, ~ InRect (pl_rect c) x y -> r_pixel q x y = r_pixel p x y)) ms ps.
Proof.
  intros HB HU HF H. apply (shown_impl d (TextsShown d)); [|now apply pictures].
  intros c vs p q. now apply text_frame.
Qed.

(** ** Pixels not covered *)


Lemma texts_silent d c vs : Forall (fun v => ~ shows_text v) vs ->
  forall done s, In s (texts d c done vs) -> exists rs, s = SpText rs [].
Proof.
  induction 1 as [|v vs Hv Hvs IH]; intros done s I; cbn [texts] in I; [contradiction|].
  apply in_app_or in I as [I|I]; [|eauto].
  destruct v; cbn in I; try contradiction; try (now destruct Hv).
  destruct (blank_line done); cbn in I; [|contradiction]. destruct I as [<-|[]]. eauto.
Qed.

Lemma silent_same d c vs p q : Forall (fun v => ~ shows_text v) vs -> TextsShown d c vs p q ->
  forall x y, r_pixel q x y = r_pixel p x y.
Proof.
  intros HV [_ _ _ _ HL _] x y. destruct (HL x y) as [E|(s & f & cs & a & b & I & HW & HX & _ & _)]; auto.
  exfalso. destruct (texts_silent d c vs HV [] s I) as [rs ->].
  destruct HW as (_ & t & HT & HS). inversion HT; subst. inversion HS; subst.
  destruct HX as (pre & k & post & E & _). destruct pre; discriminate E.
Qed.

Lemma find_text vs : (exists a v b, vs = a ++ v :: b /\ shows_text v) \/ Forall (fun v => ~ shows_text v) vs.
Proof.
  induction vs as [|v vs [(a & u & b & -> & H)|H]].
  - now right.
  - left. exists (v :: a), u, b. auto.
  - assert (shows_text v \/ ~ shows_text v) as [Hv|Hv] by (destruct v; cbn; auto).
    + left. exists [], v, vs. auto.
    + right. constructor; auto.
Qed.

Lemma Graphics_frame d c done vs p q : Graphics d c done vs p q ->
  forall pg x y, (forall v, In v vs -> In v pg) ->
  r_width p = sign_width_pixels (d_vms_cfg d) -> r_height p = sign_height_pixels (d_vms_cfg d) ->
  ~ Covered d pg x y ->
  r_width q = r_width p /\ r_height q = r_height p /\ r_pixel q x y = r_pixel p x y.
Proof.
  induction 1 as [done p|done n pos r p q q' H1 H2 IH|done rect clr r p q q' H1 H2 IH|done v r p q H1 H2 H3 IH];
    intros pg x y HI Hw Hh HC.
  - auto.
  - destruct (or_else pos (1, 1, None)) as [[gx gy] id] eqn:EP. inversion H1; subst.
    match goal with H : Overlaid _ _ _ |- _ => destruct H as (O1 & O2 & O3) end.
    assert (r_pixel q x y = r_pixel p x y) as EQ.
    { apply (O3 x y). intros k (K1 & K2 & _). apply HC. eapply Cv_graphic with (n := n) (pos := pos) (g := g).
      - apply HI. now left.
      - assumption.
      - rewrite EP. lia. }
    destruct (IH pg x y) as (I1 & I2 & I3); try congruence. { intros v I. apply HI. now right. }
    splits; congruence.
  - inversion H1; subst.
    match goal with H : Painted _ _ _ _ |- _ => destruct H as (O1 & O2 & O3) end.
    assert (r_pixel q x y = r_pixel p x y) as EQ.
    { apply (O3 x y). intros K. apply HC. eapply Cv_color with (r := rect) (clr := clr).
      - apply HI. now left.
      - now rewrite <- Hw, <- Hh. }
    destruct (IH pg x y) as (I1 & I2 & I3); try congruence. { intros v I. apply HI. now right. }
    splits; congruence.
  - apply (IH pg); auto. intros u I. apply HI. now right.
Qed.

Definition based (d : Dms) (c : Place) : Prop :=
  pl_upto c = [] /\ pl_rect c = sign_rect d
  \/ exists a r, pl_upto c = a ++ [VTextRectangle r]
       /\ pl_rect c = rect_on (sign_width_pixels (d_vms_cfg d)) (sign_height_pixels (d_vms_cfg d)) r.

Lemma covered_text d c pg vs rest v a b x y : based d c -> pg = pl_upto c ++ vs ++ rest -> no_text_rect vs ->
  vs = a ++ v :: b -> shows_text v -> InRect (pl_rect c) x y -> Covered d pg x y.
Proof.
  intros HB -> HN -> HV HI.
  assert (no_text_rect a) as HNa. { intros r I. apply (HN r). apply in_or_app. now left. }
  destruct HB as [[E1 E2]|(u & r & E1 & E2)]; rewrite E2 in HI; rewrite E1.
  all: eapply Cv_text; [|exact HI].
  - eapply Ti_sign with (a := a) (v := v); auto. cbn [app]. now rewrite <- app_assoc.
  - eapply Ti_rect with (a := u) (b := a) (v := v); auto. rewrite <- !app_assoc. reflexivity.
Qed.

Lemma Rendered_frame d pg c vs p q : Usable d -> FontsInCells d -> Rendered d (TextsShown d) c vs p q ->
  forall x y, placed d c -> based d c -> pg = pl_upto c ++ vs ->
  r_width p = sign_width_pixels (d_vms_cfg d) -> r_height p = sign_height_pixels (d_vms_cfg d) ->
  ~ Covered d pg x y -> r_pixel q x y = r_pixel p x y.
Proof.
  intros HU HF HR.
  assert (KEY : forall c vs p q q' rest x y, no_text_rect vs -> Graphics d c [] vs p q -> TextsShown d c vs q q' ->
    placed d c -> based d c -> pg = pl_upto c ++ vs ++ rest ->
    r_width p = sign_width_pixels (d_vms_cfg d) -> r_height p = sign_height_pixels (d_vms_cfg d) ->
    ~ Covered d pg x y ->
    r_width q' = r_width p /\ r_height q' = r_height p /\ r_pixel q' x y = r_pixel p x y).
  { clear - HU HF. intros c vs p q q' rest x y HN HG HT HP HB EP Hw Hh HC.
    destruct (Graphics_frame d c [] vs p q HG pg x y) as (G1 & G2 & G3); auto.
    { intros v I. rewrite EP. apply in_or_app. right. apply in_or_app. now left. }
    assert (r_pixel q' x y = r_pixel q x y) as ET.
    { destruct (find_text vs) as [(a & v & b & E & HV)|HV].
      - eapply text_frame; eauto. intros HI. apply HC. eapply covered_text; eauto.
      - eapply silent_same; eauto. }
    destruct HT as [[S1 S2] _ _ _ _ _]. splits; congruence. }
  induction HR as [c vs p q q' H1 H2 H3|c vs r rest p q q' q'' H1 H2 H3 H4 H5 IH]; intros x y HP HB EP Hw Hh HC.
  - destruct (KEY c vs p q q' [] x y) as (K1 & K2 & K3); auto. now rewrite app_nil_r.
  - destruct (KEY c vs p q q' (VTextRectangle r :: rest) x y) as (K1 & K2 & K3); auto.
    rewrite <- K3. apply IH; auto; try congruence.
    + right. exists r. auto.
    + right. exists (pl_upto c ++ vs), r. cbn [pl_upto pl_rect]. now rewrite app_assoc.
    + cbn [pl_upto]. rewrite EP, <- !app_assoc. reflexivity.
Qed.

Lemma pages_frame d ms ps : Built d -> Usable d -> FontsInCells d -> Yields Debug d ms (map Ok ps) ->
  PagesShow d (fun before pg q => forall x y, on_raster q x y -> ~ Covered d pg x y ->
    r_pixel q x y = page_background d before pg) ms ps.
Proof.
  intros HB HU HF H. apply pictures in H; auto. revert H. apply PagesShow_impl.
  intros before pg q HR x y HO HC.
  rewrite (Rendered_frame d pg _ _ _ _ HU HF HR x y); auto.
  - now left.
  - left. auto.
Qed.

(** ** Regular layout *)

Lemma pages_columns d ms ps : Built d -> Yields Debug d ms (map Ok ps) ->
  PagesShow d (PageShown d (fun c vs p q => Orderly d (pl_earlier c ++ pl_upto c) vs ->
    let spans := texts d c [] vs in
    Drawn d spans spans p q
    /\ forall a s b t e xs xt w, spans = a ++ s :: b ++ t :: e -> SameRun s t ->
       (s_jl s = JlCenter -> char_width_pixels (d_vms_cfg d) <= 1 \/ WholeCells d spans s) ->
       PlacedX d spans s xs -> PlacedX d spans t xt -> SpanWidth (d_fonts d) s w ->
       xs + w <= xt
       /\ ((forall u, In u b -> ~ SameRun s u) -> exists g, Gap (d_fonts d) s t g /\ xt = xs + w + g))) ms ps.
Proof.
  intros HB H. apply (shown_impl d (TextsShown d)); [|now apply pictures].
  intros c vs p q _ [_ HF _ _ _ HD] HO. apply orderly in HO as [HN HS]. cbv zeta. split; auto.
  intros a s b t e xs xt w E R J X1 X2 W. destruct (Built_parts d HB) as (Hf & HV & HC).
  assert (ER : s_rect t = s_rect s).
  { rewrite (texts_rect d c vs [] s), (texts_rect d c vs [] t); auto; rewrite E; apply in_or_app; right.
    - right. apply in_or_app. right. now left.
    - now left. }
  rewrite E in *. now apply (run_columns d Hf HC a s b t e xs xt w).
Qed.

Lemma pages_sides d ms ps : Built d -> Yields Debug d ms (map Ok ps) ->
  PagesShow d (PageShown d (fun c vs p q => Orderly d (pl_earlier c ++ pl_upto c) vs ->
    let spans := texts d c [] vs in
    let left := rx (pl_rect c) - 1 in let right := left + rwidth (pl_rect c) in
    Drawn d spans spans p q
    /\ forall s x, In s spans -> PlacedX d spans s x ->
       (s_jl s = JlLeft -> FirstOfRun spans s -> x = left)
       /\ (s_jl s = JlRight -> LastOfRun spans s -> forall w, SpanWidth (d_fonts d) s w -> x + w = right)
       /\ (s_jl s = JlCenter -> FirstOfRun spans s ->
             exists run w x0, Picked (SameRun s) spans run /\ RunWidth (d_fonts d) run w
               /\ x = cell (char_width_pixels (d_vms_cfg d)) x0
               /\ 0 <= x0 - left /\ x0 - left <= right - (x0 + w) <= x0 - left + 1))) ms ps.
Proof.
  intros HB H. apply (shown_impl d (TextsShown d)); [|now apply pictures].
  intros c vs p q _ [_ HF _ _ _ HD] HO. apply orderly in HO as [HN HS]. cbv zeta. split; auto.
  intros s x I X. destruct (Built_parts d HB) as (Hf & HV & HC). rewrite <- (texts_rect d c vs [] s I). splits.
  - intros J F. now apply (left_edge d (texts d c [] vs)).
  - intros J F w W. now apply (right_edge d (texts d c [] vs)).
  - intros J F. destruct (center_margins d _ s x HN F J X) as (run & w & x0 & E1 & E2 & E3 & E4 & E5 & E6).
    exists run, w, x0. splits; auto; lia.
Qed.

Lemma pages_rows d ms ps : Built d -> Yields Debug d ms (map Ok ps) ->
  PagesShow d (PageShown d (fun c vs p q => Orderly d (pl_earlier c ++ pl_upto c) vs ->
    let spans := texts d c [] vs in
    let top := ry (pl_rect c) - 1 in let bottom := top + rheight (pl_rect c) in
    Drawn d spans spans p q
    /\ forall s y h, In s spans -> PlacedY d spans s y -> HeightOf (d_fonts d) s h ->
       (s_jp s = JpTop -> s_line s = 0 -> forall l m, Picked (OnLine s 0) spans l ->
          Greatest (HeightOf (d_fonts d)) l m -> y + h = top + m)
       /\ (s_jp s = JpBottom -> OnLastLine spans s -> y + h = bottom)
       /\ (s_jp s = JpMiddle ->
             exists ls m y0 n a, BlockLines spans s ls /\ StackHeight d ls m
               /\ Z.of_nat n = s_line s + 1 /\ StackHeight d (firstn n ls) a
               /\ y + h = cell (char_height_pixels (d_vms_cfg d)) (y0 + a)
               /\ 0 <= y0 - top /\ y0 - top <= bottom - (y0 + m) <= y0 - top + 1))) ms ps.
Proof.
  intros HB H. apply (shown_impl d (TextsShown d)); [|now apply pictures].
  intros c vs p q _ [_ HF _ _ _ HD] HO. apply orderly in HO as [HN HS]. cbv zeta. split; auto.
  intros s y h I Y E. destruct (Built_parts d HB) as (Hf & HV & HC). rewrite <- (texts_rect d c vs [] s I). splits.
  - intros J L l m P G. eapply top_edge; eauto.
  - intros J L. eapply bottom_edge; eauto.
  - intros J. destruct (middle_margins d _ s y h J Y E) as (ls & m & y0 & n & a & E1 & E2 & E3 & E4 & E5 & E6 & E7 & E8).
    exists ls, m, y0, n, a. splits; auto; lia.
Qed.
