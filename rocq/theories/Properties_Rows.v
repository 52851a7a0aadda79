(** Property C54: lines of text do not overlap. *)

From Coq Require Import String.
From Verif Require Import Base Str Multi Color Raster Font Graphic Config Sign Render
  Spec_Multi Spec_Color Spec_Font Spec_Tfon Spec_Graphic Spec_Sign Spec_Render Spec_Layout Spec_Page Spec_Safe
  Proofs_Str Proofs_Norm Proofs_Glyph Proofs_Horiz Proofs_Vert Proofs_Place Proofs_Page Proofs_Safe Proofs_Rows
  Examples_Sign Properties_Render Properties_Layout Properties_Page Properties_Safe.
Open Scope list_scope.

(** Text [s] of a line ends above text [t] of a later line of its block; on
    neighbouring lines, from the bottom of [s] to that of [t] are the line gap and
    the height of the line of [t].  (In the middle of a sign with character cells,
    fonts must be whole cells high for the first part; rounding to cells breaks
    the second.) *)
Theorem c54_lines_partial : forall d spans p q, Built d -> Forall span_fields spans -> Numbered spans -> Stacked spans ->
  (forall s, In s spans -> SpanOn p s) -> raster_small p ->
  render_text_spans Debug d spans p = Val (Ok q) ->
  Drawn d spans spans p q
  /\ forall s t ys yt hs ht, In s spans -> In t spans -> SameBlock s t -> s_rect t = s_rect s -> s_line s < s_line t ->
     PlacedY d spans s ys -> PlacedY d spans t yt -> HeightOf (d_fonts d) s hs -> HeightOf (d_fonts d) t ht ->
     ((s_jp s = JpMiddle -> on_boundary (char_height_pixels (d_vms_cfg d)) ht) -> ys + hs <= yt)
     /\ (s_line t = s_line s + 1 -> (s_jp s = JpMiddle -> char_height_pixels (d_vms_cfg d) <= 1) ->
         exists ls lt g m, Picked (OnLine s (s_line s)) spans ls /\ Picked (OnLine s (s_line t)) spans lt
           /\ LineGap d ls lt g /\ Greatest (HeightOf (d_fonts d)) lt m /\ yt + ht = ys + hs + g + m).
Proof. exact text_lines. Qed.
Print Assumptions c54_lines_partial.

(** On every page of every message that renders, in the text rectangles whose
    tags keep the layout regular. *)
Theorem c54_pages_partial : forall d ms ps, Built d -> Usable d -> FontsInCells d -> Yields Debug d ms (map Ok ps) ->
  PagesShow d (PageShown d (fun c vs p q => Orderly d (pl_earlier c ++ pl_upto c) vs ->
    let spans := texts d c [] vs in
    Drawn d spans spans p q
    /\ forall s t ys yt hs ht, In s spans -> In t spans -> SameBlock s t -> s_line s < s_line t ->
       PlacedY d spans s ys -> PlacedY d spans t yt -> HeightOf (d_fonts d) s hs -> HeightOf (d_fonts d) t ht ->
       ys + hs <= yt)) ms ps.
Proof. exact pages_lines. Qed.
Print Assumptions c54_pages_partial.

(** Lines in two blocks on the sign of [px_sign], a blank one among them. *)
Definition rx_ms : str := lit "[jp2]A[nl0][nl0]B[jl3]A[jp4]B".
Definition rx_values : list Value :=
  [VJustificationPage (Some JpTop); VText (lit "A"); VNewLine (Some 0); VNewLine (Some 0); VText (lit "B");
   VJustificationLine (Some JlCenter); VText (lit "A"); VJustificationPage (Some JpBottom); VText (lit "B")].
Example c54_example : Meaning rx_ms (map Ok rx_values) /\ Orderly lx_d [] rx_values
  /\ exists ps, Yields Debug lx_d rx_ms (map Ok ps) /\ List.length ps = 1%nat.
Proof.
  splits.
  - apply (values_meaning Debug). vm_compute. reflexivity.
  - intros a v b E.
    repeat (destruct a as [|? a]; cbn in E; [injection E as <- <-; cbn; try exact I; try (vm_compute; auto; lia)|
            injection E as <- E]).
    destruct a; discriminate E.
  - eapply (yields_of Debug lx_d rx_ms 9 1); [vm_compute; reflexivity|cbn; lia|repeat constructor|reflexivity].
Qed.

(** Full claim: for every message.  False when a change of page justification
    after text is followed by [nl]: the lines after it are drawn over each other. *)
Theorem c54_refuted : exists d ms pg p' s t u x y,
  Built d
  /\ Meaning ms [Ok (VJustificationPage (Some JpTop)); Ok (VText (lit "A"));
                 Ok (VJustificationPage (Some JpBottom)); Ok (VNewLine None);
                 Ok (VText (lit "B")); Ok (VNewLine None); Ok (VText (lit "A"))]
  /\ pages_next Debug d (pages_new d ms) = Val (Some (Ok pg), p')
  /\ p_spans p' = [s; t; u] /\ ShowsText t (lit "B") /\ ShowsText u (lit "A")
  /\ SameBlock t u /\ s_line t < s_line u
  /\ span_x Debug d [s; t; u] t = Val (Ok x) /\ span_x Debug d [s; t; u] u = Val (Ok x)
  /\ span_y Debug d [s; t; u] t = Val (Ok y) /\ span_y Debug d [s; t; u] u = Val (Ok y).
Proof.
  set (d := sx_sign Color24Bit). set (ms := lit "[jp2]A[jp4][nl]B[nl]A").
  destruct (pages_next Debug d (pages_new d ms)) as [[[[pg|]|] p']| |] eqn:E;
    try (exfalso; vm_compute in E; discriminate E).
  assert (EN : p_spans p' = last_spans (pages_next Debug d (pages_new d ms))) by (rewrite E; reflexivity).
  vm_compute in EN.
  eexists d, ms, pg, p', _, _, _, _, _. splits.
  - exists Debug, (sx_builder Color24Bit). split; [apply sx_builder_fields|]. vm_compute. reflexivity.
  - apply (values_meaning Debug). vm_compute. reflexivity.
  - exact E.
  - exact EN.
  - constructor.
  - constructor.
  - reflexivity.
  - vm_compute. reflexivity.
  - vm_compute. reflexivity.
  - vm_compute. reflexivity.
  - vm_compute. reflexivity.
  - vm_compute. reflexivity.
Qed.
Print Assumptions c54_refuted.
