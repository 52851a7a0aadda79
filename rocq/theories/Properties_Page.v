(** Properties C42, C44, C45, C47 and C52 for whole messages: the picture of
    every page. *)

From Coq Require Import String.
From Verif Require Import Base Str Multi Color Raster Font Graphic Config Sign Render
  Spec_Multi Spec_Color Spec_Font Spec_Tfon Spec_Graphic Spec_Sign Spec_Render Spec_Layout Spec_Page
  Proofs_Str Proofs_Norm Proofs_Font Proofs_Glyph Proofs_Sign Proofs_Render
  Proofs_Horiz Proofs_Vert Proofs_Layout Proofs_Place Proofs_Each Proofs_Page Proofs_Orderly Proofs_Blank
  Proofs_Cover Examples_Sign Properties_Render Properties_Layout.
Open Scope list_scope.

(** The sign of the examples meets the hypotheses of the theorems below. *)
Example px_sign : Built lx_d /\ Usable lx_d /\ FontsInCells lx_d /\ BlankSpaces lx_d.
Proof.
  splits.
  - exists Debug, (sx_builder Color24Bit). split; [apply sx_builder_fields|]. vm_compute. reflexivity.
  - left. discriminate.
  - intros f _ _. left. reflexivity.
  - intros f c [<-|[<-|[]]] Hc Hs.
    + cbn in Hc. destruct Hc as [<-|[<-|[<-|[<-|[]]]]]; cbn in Hs; try (unfold space in Hs; cbn in Hs; lia).
      intros row col (_ & _ & k & b & i & E & Hi & T & _). destruct k as [|[|k]]; cbn in E; try discriminate E.
      injection E as <-. rewrite Z.bits_0 in T. discriminate T.
    + cbn in Hc. destruct Hc as [<-|[<-|[]]]; intros row col (_ & _ & k & b & i & E & _); destruct k; discriminate E.
Qed.

Lemma yields_of md d ms n k l : shapes (pages_take md d n (pages_new d ms)) = Val l ->
  (List.length l < n)%nat -> Forall (fun s => match s with ShPage _ _ _ => True | _ => False end) l ->
  k = List.length l -> exists ps, Yields md d ms (map Ok ps) /\ List.length ps = k.
Proof.
  intros H L F ->. apply shapes_val in H as (r & H & E).
  assert (exists ps, r = map Ok ps) as (ps & ->).
  { clear H L. revert r E. induction F as [|s l Hs F IH]; intros r E; destruct r as [|x r]; try discriminate E.
    - now exists [].
    - injection E as <- E. destruct (IH r E) as [ps ->]. destruct x as [p|e]; [|destruct Hs]. now exists (p :: ps). }
  exists ps. rewrite <- E, !map_length. split; auto. exists n. split; auto. rewrite <- E, map_length in L. auto.
Qed.

(** ** C47: blank messages *)

(** In both modes, and on every sign. *)
Theorem c47_blank : forall md d ms ps, Built d -> BlankSpaces d -> is_blank md ms = Val true ->
  Yields md d ms (map Ok ps) ->
  PagesShow d (fun before pg q => Uniform q (page_background d before pg)) ms ps.
Proof. exact blank_pages. Qed.
Print Assumptions c47_blank.

Definition px_blank : str := lit "[cb1] [np][jl3]  [nl] [pb2][np][pt5o5] ".
Example c47_example : is_blank Debug px_blank = Val true
  /\ exists ps, Yields Debug lx_d px_blank (map Ok ps) /\ List.length ps = 4%nat.
Proof.
  split; [vm_compute; reflexivity|].
  eapply (yields_of Debug lx_d px_blank 9 4); [vm_compute; reflexivity|cbn; lia|repeat constructor|reflexivity].
Qed.

(** ** C52: the picture of a page *)

(** Every page is its background colour, drawn on by the graphics and colour
    rectangles and the text of one text rectangle after the other. *)
Theorem c52_pictures : forall d ms ps, Built d -> Yields Debug d ms (map Ok ps) ->
  PagesShow d (PageShown d (TextsShown d)) ms ps.
Proof. exact pictures. Qed.
Print Assumptions c52_pictures.

(** What is not covered has the background colour. *)
Theorem c52_background_partial : forall d ms ps, Built d -> Usable d -> FontsInCells d -> Yields Debug d ms (map Ok ps) ->
  PagesShow d (fun before pg q => forall x y, on_raster q x y -> ~ Covered d pg x y ->
    r_pixel q x y = page_background d before pg) ms ps.
Proof. exact pages_frame. Qed.
Print Assumptions c52_background_partial.

(** A page with a graphic, a rectangle and texts, and a pixel it does not cover. *)
Definition px_page : str := lit "[cb2][g1,3,2][cr8,1,2,2,3][tr1,5,10,8]A[jl3]B[nl][jl2]A".
Example c52_example : exists ps, Yields Debug lx_d px_page (map Ok ps) /\ List.length ps = 1%nat.
Proof.
  eapply (yields_of Debug lx_d px_page 9 1); [vm_compute; reflexivity|cbn; lia|repeat constructor|reflexivity].
Qed.
Definition px_values : list Value :=
  [VColorBackground (Some (Legacy 2)); VGraphic 1 (Some (3, 2, None));
   VColorRectangle (mkRect 8 1 2 2) (Legacy 3); VTextRectangle (mkRect 1 5 10 8);
   VText (lit "A"); VJustificationLine (Some JlCenter); VText (lit "B"); VNewLine None;
   VJustificationLine (Some JlLeft); VText (lit "A")].

Example c52_covered : Meaning px_page (map Ok px_values) /\ ~ Covered lx_d px_values 15 3
  /\ Covered lx_d px_values 4 7 /\ Covered lx_d px_values 8 0 /\ Covered lx_d px_values 3 2.
Proof.
  splits.
  - apply (values_meaning Debug). vm_compute. reflexivity.
  - intros [n pos g I G H|r clr I H|r T H].
    + cbn in I. repeat (destruct I as [I|I]; try discriminate I); try contradiction. injection I as <- <-. cbn in H.
      destruct G as (_ & pre & post & E & HN). destruct pre as [|k pre]; cbn in E; injection E as <- E; cbn in H; [lia|].
      apply (HN sx_graphic); [now left|reflexivity].
    + cbn in I. repeat (destruct I as [I|I]; try discriminate I); try contradiction. injection I as <- <-. unfold Covers in H. cbn in H. lia.
    + destruct T as [a v b E N S|a r b v c E N S].
      * unfold px_values in E. do 4 (destruct a as [|? a]; cbn in E; injection E as <- E; [subst; destruct S|]).
        apply (N (mkRect 1 5 10 8)). cbn. auto.
      * assert (In (VTextRectangle r) px_values) as J by (rewrite E; apply in_or_app; right; now left).
        cbn in J. repeat (destruct J as [J|J]; try discriminate J); try contradiction. injection J as <-. unfold InRect in H. cbn in H. lia.
  - eapply Cv_text; [eapply Ti_rect with (a := [_; _; _]) (b := []); [reflexivity|intros ? []|exact I]|].
    unfold InRect. cbn. lia.
  - eapply Cv_color; [right; right; left; reflexivity|]. unfold Covers. cbn. lia.
  - eapply Cv_graphic with (g := sx_graphic); [right; left; reflexivity| |cbn; lia].
    split; [reflexivity|]. exists [], [graphic_default; graphic_default]. split; [reflexivity|]. intros ? [].
Qed.

(** Full claim: for every sign.  False on the sign of [c42_refuted]. *)
Theorem c52_refuted : exists b d ms vs pg x y, builder_fields b /\ build Debug b = Val (Ok d)
  /\ Meaning ms (map Ok vs) /\ pages_take Debug d 2 (pages_new d ms) = Val [Ok pg]
  /\ on_raster (pg_raster pg) x y /\ ~ Covered d vs x y
  /\ r_pixel (pg_raster pg) x y <> page_background d [] vs.
Proof.
  set (ms := lit "[jp3][tr1,8,20,7]A").
  destruct (pixel_of_val (pages_take Debug lx_sign 2 (pages_new lx_sign ms)) 0 2 (255, 208, 0))
    as (pg & H & E); [vm_compute; reflexivity|].
  assert (EW : shapes (pages_take Debug lx_sign 2 (pages_new lx_sign ms)) = Val [ShPage 20 14 30])
    by (vm_compute; reflexivity).
  rewrite H in EW. cbn in EW. injection EW as W1 W2 _.
  exists lx_builder, lx_sign, ms, [VJustificationPage (Some JpMiddle); VTextRectangle (mkRect 1 8 20 7); VText (lit "A")], pg, 0, 2. splits.
  - apply lx_builder_fields.
  - vm_compute. reflexivity.
  - apply (values_meaning Debug). vm_compute. reflexivity.
  - exact H.
  - unfold on_raster. rewrite W1, W2. lia.
  - intros [n pos g I G HC|r clr I HC|r T HC].
    + cbn in I. repeat (destruct I as [I|I]; try discriminate I); contradiction.
    + cbn in I. repeat (destruct I as [I|I]; try discriminate I); contradiction.
    + destruct T as [a v b E' N S|a r b v c E' N S].
      * do 2 (destruct a as [|? a]; cbn in E'; injection E' as <- E'; [subst; destruct S|]).
        apply (N (mkRect 1 8 20 7)). cbn. auto.
      * assert (In (VTextRectangle r) [VJustificationPage (Some JpMiddle); VTextRectangle (mkRect 1 8 20 7); VText (lit "A")]) as J
          by (rewrite E'; apply in_or_app; right; now left).
        cbn in J. repeat (destruct J as [J|J]; try discriminate J); try contradiction. injection J as <-. unfold InRect in HC. cbn in HC. lia.
  - rewrite E. vm_compute. discriminate.
Qed.
Print Assumptions c52_refuted.

(** ** C42: text stays in its rectangle *)

(** In every text rectangle of every page. *)
Theorem c42_pages_partial : forall d ms ps, Built d -> Usable d -> FontsInCells d -> Yields Debug d ms (map Ok ps) ->
  PagesShow d (PageShown d (fun c vs p q =>
    forall x y, ~ InRect (pl_rect c) x y -> r_pixel q x y = r_pixel p x y)) ms ps.
Proof. exact pages_inside. Qed.
Print Assumptions c42_pages_partial.

(** ** C44 and C45: places of text *)

(** In every text rectangle with regular tags, of every page. *)
Theorem c44_pages_partial : forall d ms ps, Built d -> Yields Debug d ms (map Ok ps) ->
  PagesShow d (PageShown d (fun c vs p q => Orderly d (pl_earlier c ++ pl_upto c) vs ->
    let spans := texts d c [] vs in
    Drawn d spans spans p q
    /\ forall a s b t e xs xt w, spans = a ++ s :: b ++ t :: e -> SameRun s t ->
       (s_jl s = JlCenter -> char_width_pixels (d_vms_cfg d) <= 1 \/ WholeCells d spans s) ->
       PlacedX d spans s xs -> PlacedX d spans t xt -> SpanWidth (d_fonts d) s w ->
       xs + w <= xt
       /\ ((forall u, In u b -> ~ SameRun s u) -> exists g, Gap (d_fonts d) s t g /\ xt = xs + w + g))) ms ps.
Proof. exact pages_columns. Qed.
Print Assumptions c44_pages_partial.

Theorem c45_sides_pages_partial : forall d ms ps, Built d -> Yields Debug d ms (map Ok ps) ->
  PagesShow d (PageShown d (fun c vs p q => Orderly d (pl_earlier c ++ pl_upto c) vs ->
    let spans := texts d c [] vs in
    let left := rx (pl_rect c) - 1 in let right := left + rwidth (pl_rect c) in
    Drawn d spans spans p q
    /\ forall s x, In s spans -> PlacedX d spans s x ->
       (s_jl s = JlLeft -> FirstOfRun spans s -> x = left)
       /\ (s_jl s = JlRight -> LastOfRun spans s -> forall w, SpanWidth (d_fonts d) s w -> x + w = right)
       /\ (s_jl s = JlCenter -> FirstOfRun spans s ->
             exists run w x0, Picked (SameRun s) spans run /\ RunWidth (d_fonts d) run w
               /\ x = cell (char_width_pixels (d_vms_cfg d)) x0
               /\ 0 <= x0 - left /\ x0 - left <= right - (x0 + w) <= x0 - left + 1))) ms ps.
Proof. exact pages_sides. Qed.
Print Assumptions c45_sides_pages_partial.

Theorem c45_rows_pages_partial : forall d ms ps, Built d -> Yields Debug d ms (map Ok ps) ->
  PagesShow d (PageShown d (fun c vs p q => Orderly d (pl_earlier c ++ pl_upto c) vs ->
    let spans := texts d c [] vs in
    let top := ry (pl_rect c) - 1 in let bottom := top + rheight (pl_rect c) in
    Drawn d spans spans p q
    /\ forall s y h, In s spans -> PlacedY d spans s y -> HeightOf (d_fonts d) s h ->
       (s_jp s = JpTop -> s_line s = 0 -> forall l m, Picked (OnLine s 0) spans l ->
          Greatest (HeightOf (d_fonts d)) l m -> y + h = top + m)
       /\ (s_jp s = JpBottom -> OnLastLine spans s -> y + h = bottom)
       /\ (s_jp s = JpMiddle ->
             exists ls m y0 n a, BlockLines spans s ls /\ StackHeight d ls m
               /\ Z.of_nat n = s_line s + 1 /\ StackHeight d (firstn n ls) a
               /\ y + h = cell (char_height_pixels (d_vms_cfg d)) (y0 + a)
               /\ 0 <= y0 - top /\ y0 - top <= bottom - (y0 + m) <= y0 - top + 1))) ms ps.
Proof. exact pages_rows. Qed.
Print Assumptions c45_rows_pages_partial.

(** The tags of the page above are regular. *)
Example c44_orderly : Orderly lx_d [VColorBackground (Some (Legacy 2))]
  [VText (lit "A"); VJustificationLine (Some JlCenter); VText (lit "B"); VNewLine None;
   VJustificationLine (Some JlLeft); VText (lit "A")].
Proof.
  intros a v b E.
  repeat (destruct a as [|? a]; cbn in E; [injection E as <- <-; cbn; try exact I; try (vm_compute; auto; lia)|
          injection E as <- E]).
  destruct a; discriminate E.
Qed.
