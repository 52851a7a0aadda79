(** Properties C42, C44, C45, C50, C52, C54, C73 and C74 in release builds.

    What is proved of debug builds in [Properties_Page] and [Properties_Rows] holds
    of both builds, for the messages that do not make a release build go on with a
    number that has wrapped around ([c55_wraps] says which these are,
    [c55_no_crash_partial] gives simpler conditions). *)

From Coq Require Import String.
From Verif Require Import Base Str Multi Color Raster Font Graphic Config Sign Render
  Spec_Multi Spec_Color Spec_Font Spec_Tfon Spec_Graphic Spec_Sign Spec_Render Spec_Layout Spec_Page Spec_Same Spec_Join Spec_Safe Spec_Fail Spec_Move Spec_Embed
  Proofs_Str Proofs_Norm Proofs_Safe Proofs_Fail Proofs_Verdict Proofs_Unique Proofs_Regular Proofs_Release
  Examples_Sign Properties_Render Properties_Layout Properties_Page Properties_Safe Properties_Fail Properties_Rows Properties_Same Properties_Move Properties_Embed.
Open Scope list_scope.

Theorem c52_modes_partial : forall md d ms ps, Built d -> (md = Release -> ~ Wraps d ms) ->
  Yields md d ms (map Ok ps) -> PagesShow d (PageShown d (TextsShown d)) ms ps.
Proof. intros md d ms ps HB HN HY. apply c52_pictures; auto. exact (yields_debug d ms md ps HB HN HY). Qed.
Print Assumptions c52_modes_partial.

Theorem c52_background_modes_partial : forall md d ms ps, Built d -> Usable d -> FontsInCells d ->
  (md = Release -> ~ Wraps d ms) -> Yields md d ms (map Ok ps) ->
  PagesShow d (fun before pg q => forall x y, on_raster q x y -> ~ Covered d pg x y ->
    r_pixel q x y = page_background d before pg) ms ps.
Proof.
  intros md d ms ps HB HU HF HN HY. apply c52_background_partial; auto. exact (yields_debug d ms md ps HB HN HY).
Qed.
Print Assumptions c52_background_modes_partial.

Theorem c42_modes_partial : forall md d ms ps, Built d -> Usable d -> FontsInCells d ->
  (md = Release -> ~ Wraps d ms) ->
  Yields md d ms (map Ok ps) ->
  PagesShow d (PageShown d (fun c vs p q =>
    forall x y, ~ InRect (pl_rect c) x y -> r_pixel q x y = r_pixel p x y)) ms ps.
Proof.
  intros md d ms ps HB HU HF HN HY. apply c42_pages_partial; auto.
  exact (yields_debug d ms md ps HB HN HY).
Qed.
Print Assumptions c42_modes_partial.

Theorem c44_modes_partial : forall md d ms ps, Built d -> (md = Release -> ~ Wraps d ms) ->
  Yields md d ms (map Ok ps) ->
  PagesShow d (PageShown d (fun c vs p q => Orderly d (pl_earlier c ++ pl_upto c) vs ->
    let spans := texts d c [] vs in
    Drawn d spans spans p q
    /\ forall a s b t e xs xt w, spans = a ++ s :: b ++ t :: e -> SameRun s t ->
       (s_jl s = JlCenter -> char_width_pixels (d_vms_cfg d) <= 1 \/ WholeCells d spans s) ->
       PlacedX d spans s xs -> PlacedX d spans t xt -> SpanWidth (d_fonts d) s w ->
       xs + w <= xt
       /\ ((forall u, In u b -> ~ SameRun s u) -> exists g, Gap (d_fonts d) s t g /\ xt = xs + w + g))) ms ps.
Proof.
  intros md d ms ps HB HN HY. apply c44_pages_partial; auto.
  exact (yields_debug d ms md ps HB HN HY).
Qed.
Print Assumptions c44_modes_partial.

Theorem c45_sides_modes_partial : forall md d ms ps, Built d -> (md = Release -> ~ Wraps d ms) ->
  Yields md d ms (map Ok ps) ->
  PagesShow d (PageShown d (fun c vs p q => Orderly d (pl_earlier c ++ pl_upto c) vs ->
    let spans := texts d c [] vs in
    let left := rx (pl_rect c) - 1 in let right := left + rwidth (pl_rect c) in
    Drawn d spans spans p q
    /\ forall s x, In s spans -> PlacedX d spans s x ->
       (s_jl s = JlLeft -> FirstOfRun spans s -> x = left)
       /\ (s_jl s = JlRight -> LastOfRun spans s -> forall w, SpanWidth (d_fonts d) s w -> x + w = right)
       /\ (s_jl s = JlCenter -> FirstOfRun spans s ->
             exists run w x0, Picked (SameRun s) spans run /\ RunWidth (d_fonts d) run w
               /\ x = cell (char_width_pixels (d_vms_cfg d)) x0
               /\ 0 <= x0 - left /\ x0 - left <= right - (x0 + w) <= x0 - left + 1))) ms ps.
Proof.
  intros md d ms ps HB HN HY. apply c45_sides_pages_partial; auto.
  exact (yields_debug d ms md ps HB HN HY).
Qed.
Print Assumptions c45_sides_modes_partial.

Theorem c45_rows_modes_partial : forall md d ms ps, Built d -> (md = Release -> ~ Wraps d ms) ->
  Yields md d ms (map Ok ps) ->
  PagesShow d (PageShown d (fun c vs p q => Orderly d (pl_earlier c ++ pl_upto c) vs ->
    let spans := texts d c [] vs in
    let top := ry (pl_rect c) - 1 in let bottom := top + rheight (pl_rect c) in
    Drawn d spans spans p q
    /\ forall s y h, In s spans -> PlacedY d spans s y -> HeightOf (d_fonts d) s h ->
       (s_jp s = JpTop -> s_line s = 0 -> forall l m, Picked (OnLine s 0) spans l ->
          Greatest (HeightOf (d_fonts d)) l m -> y + h = top + m)
       /\ (s_jp s = JpBottom -> OnLastLine spans s -> y + h = bottom)
       /\ (s_jp s = JpMiddle ->
             exists ls m y0 n a, BlockLines spans s ls /\ StackHeight d ls m
               /\ Z.of_nat n = s_line s + 1 /\ StackHeight d (firstn n ls) a
               /\ y + h = cell (char_height_pixels (d_vms_cfg d)) (y0 + a)
               /\ 0 <= y0 - top /\ y0 - top <= bottom - (y0 + m) <= y0 - top + 1))) ms ps.
Proof.
  intros md d ms ps HB HN HY. apply c45_rows_pages_partial; auto.
  exact (yields_debug d ms md ps HB HN HY).
Qed.
Print Assumptions c45_rows_modes_partial.

Theorem c54_modes_partial : forall md d ms ps, Built d -> Usable d -> FontsInCells d ->
  (md = Release -> ~ Wraps d ms) ->
  Yields md d ms (map Ok ps) ->
  PagesShow d (PageShown d (fun c vs p q => Orderly d (pl_earlier c ++ pl_upto c) vs ->
    let spans := texts d c [] vs in
    Drawn d spans spans p q
    /\ forall s t ys yt hs ht, In s spans -> In t spans -> SameBlock s t -> s_line s < s_line t ->
       PlacedY d spans s ys -> PlacedY d spans t yt -> HeightOf (d_fonts d) s hs -> HeightOf (d_fonts d) t ht ->
       ys + hs <= yt)) ms ps.
Proof.
  intros md d ms ps HB HU HF HN HY. apply c54_pages_partial; auto.
  exact (yields_debug d ms md ps HB HN HY).
Qed.
Print Assumptions c54_modes_partial.

(** The page of [c52_modes_example] meets the hypotheses in a release build; so does
    text on the sign of [c41_cells_refuted], whose fonts do not keep to the cells, as
    long as it is not in the middle. *)
Example release_example :
  (exists ps, Built lx_d /\ Usable lx_d /\ FontsInCells lx_d /\ ~ Wraps lx_d px_page
     /\ Yields Release lx_d px_page (map Ok ps) /\ List.length ps = 1%nat)
  /\ exists d ps, Built d /\ ~ FontsInCells d /\ ~ Wraps d (lit "[jp2]A")
     /\ Yields Release d (lit "[jp2]A") (map Ok ps) /\ List.length ps = 1%nat.
Proof.
  split.
  - destruct c52_modes_example as (ps & HB & HU & HF & HP & HM & HR & HO & HY & L).
    exists ps. split; [exact HB|]. split; [exact HU|]. split; [exact HF|]. split; [|split; [exact HY|exact L]].
    exact (no_panic_wraps _ _ (c55_no_crash_partial _ _ _ HB HU HF HP HM HR HO)).
  - assert (exists d, build Debug fx_cells = Val (Ok d)) as (d & E) by (eexists; vm_compute; reflexivity).
    assert (HB : Built d) by (exists Debug, fx_cells; split; [apply fx_cells_fields|exact E]).
    vm_compute in E. injection E as E.
    destruct (yields_of Debug d (lit "[jp2]A") 3 1 [ShPage 20 12 30]) as (ps & HY & L);
      [subst d; vm_compute; reflexivity|cbn; lia|repeat constructor|reflexivity|].
    exists d, ps. split; [exact HB|]. split; [|split; [exact (c55_accepted_wraps d _ ps (c55_accepted_partial d _ ps HB HY))|split; [now apply yields_modes|exact L]]].
    intros HF. subst d. destruct (HF sx_font (or_introl eq_refl)) as [H|[k H]]; [left|discriminate H|cbn in H; lia].
    unfold used_font. cbn. lia.
Qed.

(** C50 with joined texts. *)
Theorem c50_join_modes_partial : forall md d ms vs s ps, Built d -> WholeGlyphs d -> (md = Release -> ~ Wraps d ms) ->
  Meaning ms (map Ok vs) -> Forall small_hex vs ->
  JlRegular vs -> Regular d vs -> TailSilent vs ->
  normalize md ms = Val s -> Yields md d ms (map Ok ps) ->
  exists ps' ps'', ps = ps' ++ ps'' /\ Yields md d s (map Ok ps')
    /\ (BlankSpaces d -> Forall (fun P => OneColour (pg_raster P)) ps'').
Proof.
  intros md d ms vs s ps HB HW HN HM HX HJ HR HT H HY.
  assert (E : normalize Debug ms = Val s) by (rewrite (normalize_val md ms _ HM) in H; now rewrite (normalize_val Debug ms _ HM)).
  destruct (normalize_joined d ms vs s ps HB HW HM HX HJ HR HT E (yields_debug d ms md ps HB HN HY)) as (p & q & -> & Y & B).
  exists p, q. auto.
Qed.
Print Assumptions c50_join_modes_partial.

Example c50_join_modes_example : ~ Wraps lx_d jx_text
  /\ exists ps, Yields Release lx_d jx_text (map Ok ps) /\ List.length ps = 2%nat.
Proof.
  destruct c50_join_example as (HB & _ & _ & _ & _ & _ & _ & _ & _ & _ & (ps & HY & L) & _).
  split; [exact (c55_accepted_wraps _ _ ps (c55_accepted_partial _ _ ps HB HY))|].
  exists ps. split; [now apply yields_modes|exact L].
Qed.

(** C73 and C74: messages moved on a sign, and set into a larger one. *)
Theorem c73_modes : forall dx dy md d n ms ms' vs vs' ps ps', Built d -> (md = Release -> ~ Wraps d ms /\ ~ Wraps d ms') ->
  Meaning ms (map Ok vs) -> Meaning ms' (map Ok vs') -> Forall2 (MovedValue dx dy) vs vs' -> Framed vs ->
  pages_take md d n (pages_new d ms) = Val (map Ok ps) -> pages_take md d n (pages_new d ms') = Val (map Ok ps') ->
  Forall2 (MovedPage dx dy) ps ps'.
Proof.
  intros dx dy md d n ms ms' vs vs' ps ps' HB HN HM HM' HV HF H H'.
  apply (c73_moved dx dy md d n ms ms' vs vs' ps ps' HM HM' HV HF);
    [apply (pages_debug d ms md)|apply (pages_debug d ms' md)]; auto; intros E; apply (HN E).
Qed.
Print Assumptions c73_modes.

Theorem c74_modes : forall dx dy d d' md n ms ms' vs vs' ps, Built d -> (md = Release -> ~ Wraps d ms) ->
  SetInto dx dy d d' -> table_fields (d_fonts d) ->
  Meaning ms (map Ok vs) -> Meaning ms' (map Ok vs') -> Forall2 (MovedValue dx dy) vs vs' -> Framed vs ->
  pages_take md d n (pages_new d ms) = Val (map Ok ps) ->
  exists ps', pages_take md d' n (pages_new d' ms') = Val (map Ok ps') /\ Forall2 (SetPage dx dy d d') ps ps'.
Proof.
  intros dx dy d d' md n ms ms' vs vs' ps HB HN HS HT HM HM' HV HF H.
  apply (c74_set_into dx dy d d' md n ms ms' vs vs' ps HS HT HM HM' HV HF), (pages_debug d ms md); auto.
Qed.
Print Assumptions c74_modes.

Example c73_modes_example : Built lx_d /\ ~ Wraps lx_d ex_at /\ ~ Wraps lx_d ex_moved
  /\ exists ps ps', pages_take Release lx_d 9 (pages_new lx_d ex_at) = Val (map Ok ps) /\ List.length ps = 2%nat
     /\ pages_take Release lx_d 9 (pages_new lx_d ex_moved) = Val (map Ok ps') /\ List.length ps' = 2%nat.
Proof.
  pose proof (proj1 px_sign) as HB.
  destruct c73_example as (_ & _ & _ & _ & p & q & p' & q' & H & H').
  assert (W : forall ms l, pages_take Debug lx_d 9 (pages_new lx_d ms) = Val (map Ok l) -> (List.length l < 9)%nat -> ~ Wraps lx_d ms).
  { intros ms l E L. apply (c55_accepted_wraps _ _ l), c55_accepted_partial; [exact HB|]. exists 9%nat. rewrite map_length. split; [exact E|exact L]. }
  split; [exact HB|]. split; [exact (W _ _ H ltac:(cbn; lia))|]. split; [exact (W _ _ H' ltac:(cbn; lia))|].
  exists [p; q], [p'; q']. split; [exact (Proofs_Modes.take_modes lx_d 9 ex_at _ H)|]. split; [reflexivity|].
  split; [exact (Proofs_Modes.take_modes lx_d 9 ex_moved _ H')|reflexivity].
Qed.
