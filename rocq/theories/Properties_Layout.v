(** Properties C42, C44, C45 and C46: where text is drawn. *)

From Coq Require Import String.
From Verif Require Import Base Str Multi Color Raster Font Graphic Config Sign Render
  Spec_Multi Spec_Color Spec_Font Spec_Tfon Spec_Graphic Spec_Sign Spec_Render Spec_Layout
  Proofs_Str Proofs_Norm Proofs_Font Proofs_Glyph Proofs_Sign Proofs_Render
  Proofs_Horiz Proofs_Vert Proofs_Layout Proofs_Place Examples_Sign Properties_Render.
Open Scope list_scope.

(** ** C46: order of justification *)

(** For every list of spans, in both modes. *)
Theorem c46_tag_conflict : forall md d spans r,
  render_text_spans md d spans r = Val (Err STagConflict) <-> OutOfOrder spans.
Proof. exact tag_conflict. Qed.
Print Assumptions c46_tag_conflict.

Example c46_example :
  shapes (pages_take Debug (sx_sign Color24Bit) 1 (pages_new (sx_sign Color24Bit) (lit "[jp3]A[jp2]B")))
  = Val [ShErr STagConflict]
  /\ shapes (pages_take Debug (sx_sign Color24Bit) 1 (pages_new (sx_sign Color24Bit) (lit "[jl3]A[jl2]B")))
  = Val [ShErr STagConflict]
  /\ shapes (pages_take Debug (sx_sign Color24Bit) 1 (pages_new (sx_sign Color24Bit) (lit "[jl3]A[nl][jl2]B")))
  = Val [ShPage 20 12 30].
Proof. splits; vm_compute; reflexivity. Qed.

(** Two spans that meet the hypotheses of the theorems below: [A] and [B] on one
    line of a 20 by 12 sign, drawn on a blank page. *)
Definition lx_d : Dms := sx_sign Color24Bit.
Definition lx_s : Span := SpText (rs_new lx_d) (lit "A").
Definition lx_t : Span := SpText (set_span (rs_new lx_d) 1) (lit "B").
Definition lx_page : Raster rgb := with_color 20 12 (0, 0, 0).

Example lx_hypotheses : Built lx_d /\ Forall span_fields [lx_s; lx_t] /\ Numbered [lx_s; lx_t]
  /\ Stacked [lx_s; lx_t] /\ ~ OutOfOrder [lx_s; lx_t]
  /\ (forall s, In s [lx_s; lx_t] -> SpanOn lx_page s /\ SoundFont lx_d (rs_font (span_state s)) /\ KeepsCells lx_d s /\ Placeable s)
  /\ raster_small lx_page /\ SameRun lx_s lx_t
  /\ exists q, render_text_spans Debug lx_d [lx_s; lx_t] lx_page = Val (Ok q).
Proof.
  splits.
  - exists Debug, (sx_builder Color24Bit). split; [apply sx_builder_fields|]. vm_compute. reflexivity.
  - apply Forall_forall. intros s [<-|[<-|[]]]; unfold span_fields, u8, s_line, s_number; cbn; splits; try lia;
      try (intros n E; discriminate E); eexists; (split; [constructor|]); cbn; intros [E|[]]; discriminate E.
  - intros a s b t c E _. destruct a as [|a1 [|a2 a]]; cbn in E.
    + injection E as <- E. destruct b as [|b1 [|b2 b]]; cbn in E; try discriminate E.
      injection E as <- <-. cbn. unfold s_number. cbn. lia.
    + injection E as E1 E2 E. destruct b; discriminate E.
    + destruct a; discriminate E.
  - intros a s b E. destruct a as [|a1 [|a2 a]]; cbn in E.
    + injection E as <- <-. cbn. lia.
    + injection E as <- <- <-. unfold s_line. cbn. lia.
    + destruct a; discriminate E.
  - intros (a & s & t & b & E & B). destruct a as [|a1 [|a2 a]]; cbn in E; try discriminate E.
    + injection E as <- <- <-. unfold Backwards, s_jp, s_line, s_jl in B. cbn in B. lia.
    + destruct a; discriminate E.
  - assert (forall st k, rs_rect st = mkRect 1 1 20 12 -> rs_font st <> 0 -> rs_jl st = JlLeft ->
      rs_jp st = JpTop -> SpanOn lx_page (SpText st k) /\ SoundFont lx_d (rs_font st) /\ KeepsCells lx_d (SpText st k) /\ Placeable (SpText st k)) as K.
    { intros st k R F L P. unfold SpanOn, SoundFont, KeepsCells, Placeable, rect_fits, s_rect, s_jl, s_jp, InRect, on_raster. cbn.
      rewrite R, L, P. cbn. splits; auto; try lia; intros; try discriminate; try lia. }
    intros s [<-|[<-|[]]]; apply K; try reflexivity; cbn; lia.
  - unfold raster_small. cbn. lia.
  - repeat split.
  - assert (E : match render_text_spans Debug lx_d [lx_s; lx_t] lx_page with Val (Ok _) => true | _ => false end = true)
      by (vm_compute; reflexivity).
    destruct (render_text_spans Debug lx_d [lx_s; lx_t] lx_page) as [[q|]| |]; try discriminate E. eauto.
Qed.

(** ** C42: text stays in its rectangle *)

(** Text changes only pixels of the rectangles of its spans. *)
Theorem c42_inside_partial : forall d spans p q, Built d -> Forall span_fields spans ->
  (forall s, In s spans -> SpanOn p s /\ SoundFont d (rs_font (span_state s)) /\ KeepsCells d s) -> raster_small p ->
  render_text_spans Debug d spans p = Val (Ok q) ->
  r_width q = r_width p /\ r_height q = r_height p
  /\ forall x y, (forall s, In s spans -> ~ InRect (s_rect s) x y) -> r_pixel q x y = r_pixel p x y.
Proof. exact text_inside. Qed.
Print Assumptions c42_inside_partial.

(** Text that fits is drawn, text that does not is refused. *)
Theorem c42_too_big_partial : forall d spans p, Built d -> Forall span_fields spans ->
  Stacked spans -> AllSet (d_fonts d) spans -> SumsFit d spans -> ~ OutOfOrder spans ->
  (forall s, In s spans -> SpanOn p s /\ SoundFont d (rs_font (span_state s)) /\ KeepsCells d s /\ Placeable s) -> raster_small p ->
  exists r, render_text_spans Debug d spans p = Val r
    /\ ((exists q, r = Ok q) \/ r = Err STextTooBig)
    /\ (r = Err STextTooBig <-> exists s, In s spans /\ (TooWide d spans s \/ TooTall d spans s)).
Proof. exact text_fits. Qed.
Print Assumptions c42_too_big_partial.

(** Full claim: for every sign.  False on a sign with character cells 7 high and
    a font 5 high: rounding to cells puts middle text above its rectangle. *)
Definition lx_vms : VmsCfg := mkVmsCfg 7 0 14 20 70 70 (255, 112, 224) (0, 0, 0).
Definition lx_font : Font := mkFont 1 (lit "five") 5 0 0 [mkChar 65 1 [248]; mkChar 0 0 []].
Definition lx_builder : DmsBuilder :=
  mkBuilder sx_sign_cfg lx_vms [lx_font] (sx_multi Color24Bit) [graphic_default].
Definition lx_sign : Dms := mkDms sx_sign_cfg lx_vms [lx_font] (sx_multi Color24Bit) [graphic_default].

Lemma lx_builder_fields : builder_fields lx_builder.
Proof.
  unfold builder_fields, sign_fields, vms_fields, multi_fields, rgb_ok, color_bytes, u8, u16. cbn.
  splits; try lia.
  - unfold table_fields. repeat constructor; unfold u8, u16; cbn; try lia; repeat constructor; unfold u8, u16; cbn; try lia.
  - repeat constructor; unfold u8, u16; cbn; try lia; repeat constructor; unfold u8, u16; cbn; try lia.
Qed.

Definition pixel_of (m : M (list (result Page SyntaxError))) (x y : Z) : option rgb :=
  match m with Val [Ok p] => Some (r_pixel (pg_raster p) x y) | _ => None end.
Lemma pixel_of_val m x y c : pixel_of m x y = Some c -> exists p, m = Val [Ok p] /\ r_pixel (pg_raster p) x y = c.
Proof. destruct m as [[|[p|e] [|]]| |]; cbn; try discriminate. intros [= <-]. eauto. Qed.

Theorem c42_refuted : exists b d ms r t pg x y, builder_fields b /\ build Debug b = Val (Ok d)
  /\ Meaning ms [Ok (VJustificationPage (Some JpMiddle)); Ok (VTextRectangle r); Ok (VText t)]
  /\ GoodTextRect d r /\ pages_take Debug d 1 (pages_new d ms) = Val [Ok pg]
  /\ ~ InRect r x y /\ r_pixel (pg_raster pg) x y <> background_default_rgb d.
Proof.
  set (ms := lit "[jp3][tr1,8,20,7]A").
  destruct (pixel_of_val (pages_take Debug lx_sign 1 (pages_new lx_sign ms)) 0 2 (255, 208, 0))
    as (pg & H & E); [vm_compute; reflexivity|].
  exists lx_builder, lx_sign, ms, (mkRect 1 8 20 7), (lit "A"), pg, 0, 2. splits.
  - apply lx_builder_fields.
  - vm_compute. reflexivity.
  - apply (values_meaning Debug). vm_compute. reflexivity.
  - unfold GoodTextRect, on_boundary. cbn. splits; try lia; try (left; reflexivity); right; exists 1; lia.
  - exact H.
  - unfold InRect. cbn. lia.
  - rewrite E. vm_compute. discriminate.
Qed.
Print Assumptions c42_refuted.

(** ** C44: text on one line does not overlap *)

(** [Drawn] puts every span at the columns [PlacedX] gives it. *)
Theorem c44_columns_partial : forall d spans p q, Built d -> Forall span_fields spans ->
  Numbered spans -> Stacked spans -> (forall s, In s spans -> SpanOn p s) -> raster_small p ->
  render_text_spans Debug d spans p = Val (Ok q) ->
  Drawn d spans spans p q
  /\ forall a s b t c xs xt w, spans = a ++ s :: b ++ t :: c -> SameRun s t -> s_rect t = s_rect s ->
     (s_jl s = JlCenter -> char_width_pixels (d_vms_cfg d) <= 1 \/ WholeCells d spans s) ->
     PlacedX d spans s xs -> PlacedX d spans t xt -> SpanWidth (d_fonts d) s w ->
     xs + w <= xt
     /\ ((forall u, In u b -> ~ SameRun s u) -> exists g, Gap (d_fonts d) s t g /\ xt = xs + w + g).
Proof. exact text_columns. Qed.
Print Assumptions c44_columns_partial.

(** Full claim: for every message.  False when a [jl] tag repeats the line
    justification in force: the text after it is drawn over the text before it. *)
Definition last_spans (m : M (option (result Page SyntaxError) * Pages)) : list Span :=
  match m with Val (Some (Ok _), p) => p_spans p | _ => [] end.

Theorem c44_refuted : exists d ms pg p' s t x,
  Built d
  /\ Meaning ms [Ok (VJustificationLine (Some JlLeft)); Ok (VText (lit "A"));
                 Ok (VJustificationLine (Some JlLeft)); Ok (VText (lit "B"))]
  /\ pages_next Debug d (pages_new d ms) = Val (Some (Ok pg), p')
  /\ p_spans p' = [s; t] /\ ShowsText s (lit "A") /\ ShowsText t (lit "B") /\ SameRun s t
  /\ span_x Debug d [s; t] s = Val (Ok x) /\ span_x Debug d [s; t] t = Val (Ok x).
Proof.
  set (d := sx_sign Color24Bit). set (ms := lit "[jl2]A[jl2]B").
  destruct (pages_next Debug d (pages_new d ms)) as [[[[pg|]|] p']| |] eqn:E;
    try (exfalso; vm_compute in E; discriminate E).
  assert (EN : p_spans p' = last_spans (pages_next Debug d (pages_new d ms))) by (rewrite E; reflexivity).
  vm_compute in EN.
  eexists d, ms, pg, p', _, _, 1. splits.
  - exists Debug, (sx_builder Color24Bit). split; [apply sx_builder_fields|]. vm_compute. reflexivity.
  - apply (values_meaning Debug). vm_compute. reflexivity.
  - exact E.
  - exact EN.
  - constructor.
  - constructor.
  - repeat split; reflexivity.
  - vm_compute. reflexivity.
  - vm_compute. reflexivity.
Qed.
Print Assumptions c44_refuted.

(** ** C45: justification *)

Theorem c45_sides_partial : forall d spans p q, Built d -> Forall span_fields spans ->
  Numbered spans -> Stacked spans -> (forall s, In s spans -> SpanOn p s) -> raster_small p ->
  render_text_spans Debug d spans p = Val (Ok q) ->
  Drawn d spans spans p q
  /\ forall s x, PlacedX d spans s x ->
     let left := rx (s_rect s) - 1 in let right := left + rwidth (s_rect s) in
     (s_jl s = JlLeft -> FirstOfRun spans s -> x = left)
     /\ (s_jl s = JlRight -> LastOfRun spans s -> forall w, SpanWidth (d_fonts d) s w -> x + w = right)
     /\ (s_jl s = JlCenter -> FirstOfRun spans s ->
           exists run w x0, Picked (SameRun s) spans run /\ RunWidth (d_fonts d) run w
             /\ x = cell (char_width_pixels (d_vms_cfg d)) x0
             /\ 0 <= x0 - left /\ x0 - left <= right - (x0 + w) <= x0 - left + 1).
Proof. exact text_sides. Qed.
Print Assumptions c45_sides_partial.

Theorem c45_rows_partial : forall d spans p q, Built d -> Forall span_fields spans ->
  Numbered spans -> Stacked spans -> (forall s, In s spans -> SpanOn p s) -> raster_small p ->
  render_text_spans Debug d spans p = Val (Ok q) ->
  Drawn d spans spans p q
  /\ forall s y h, In s spans -> PlacedY d spans s y -> HeightOf (d_fonts d) s h ->
     let top := ry (s_rect s) - 1 in let bottom := top + rheight (s_rect s) in
     (s_jp s = JpTop -> s_line s = 0 -> forall l m, Picked (OnLine s 0) spans l ->
        Greatest (HeightOf (d_fonts d)) l m -> y + h = top + m)
     /\ (s_jp s = JpBottom -> OnLastLine spans s -> y + h = bottom)
     /\ (s_jp s = JpMiddle ->
           exists ls m y0 n a, BlockLines spans s ls /\ StackHeight d ls m
             /\ Z.of_nat n = s_line s + 1 /\ StackHeight d (firstn n ls) a
             /\ y + h = cell (char_height_pixels (d_vms_cfg d)) (y0 + a)
             /\ 0 <= y0 - top /\ y0 - top <= bottom - (y0 + m) <= y0 - top + 1).
Proof. exact text_rows. Qed.
Print Assumptions c45_rows_partial.

(** Full claim: for every message.  False again when [jl] repeats: right-justified
    text does not reach the right edge of the sign. *)
Theorem c45_refuted : exists d ms pg p' s t x w,
  Built d
  /\ Meaning ms [Ok (VJustificationLine (Some JlRight)); Ok (VText (lit "A"));
                 Ok (VJustificationLine (Some JlRight)); Ok (VText (lit "B"))]
  /\ pages_next Debug d (pages_new d ms) = Val (Some (Ok pg), p')
  /\ p_spans p' = [s; t] /\ s_jl t = JlRight /\ LastOfRun [s; t] t
  /\ span_x Debug d [s; t] t = Val (Ok x) /\ SpanWidth (d_fonts d) t w
  /\ x + w < rx (s_rect t) + rwidth (s_rect t).
Proof.
  set (d := sx_sign Color24Bit). set (ms := lit "[jl4]A[jl4]B").
  destruct (pages_next Debug d (pages_new d ms)) as [[[[pg|]|] p']| |] eqn:E;
    try (exfalso; vm_compute in E; discriminate E).
  assert (EN : p_spans p' = last_spans (pages_next Debug d (pages_new d ms))) by (rewrite E; reflexivity).
  vm_compute in EN.
  eexists d, ms, pg, p', _, _, 15, 2. splits.
  - exists Debug, (sx_builder Color24Bit). split; [apply sx_builder_fields|]. vm_compute. reflexivity.
  - apply (values_meaning Debug). vm_compute. reflexivity.
  - exact E.
  - exact EN.
  - reflexivity.
  - eexists [_], []. split; [reflexivity|]. intros t [].
  - vm_compute. reflexivity.
  - exists sx_font, [mkChar 66 2 [252]]. split; [|reflexivity]. split.
    + split; [|intros v V; discriminate V]. split; [reflexivity|].
      exists [], [font_default 2]. split; [reflexivity|]. intros x [].
    + exists (lit "B"). split; [constructor|]. constructor; [|constructor]. unfold HasChar.
      splits; [cbn; lia|reflexivity|].
      exists [mkChar 65 3 [87; 128]], [mkChar 32 1 [0]; mkChar 0 0 []]. split; [reflexivity|].
      intros c [<-|[]]. cbn. lia.
  - cbn. lia.
Qed.
Print Assumptions c45_refuted.
