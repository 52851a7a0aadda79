(** Property C41: when rendering does not panic. *)

From Coq Require Import String.
From Verif Require Import Base Str Multi Color Raster Font Graphic Config Sign Render
  Spec_Multi Spec_Color Spec_Font Spec_Tfon Spec_Graphic Spec_Sign Spec_Render Spec_Layout Spec_Page Spec_Safe
  Proofs_Str Proofs_Norm Proofs_Font Proofs_Sign Proofs_Safe
  Examples_Sign Properties_Render Properties_Layout Properties_Page.
Open Scope list_scope.

(** C41 asks that rendering never panics.  It does (see [c41_field_refuted] and
    [c41_overflow_refuted]); it does not on usable signs whose fonts keep to the
    character cells and whose default justifications can be placed, for messages
    that can be read, of rendered tags only, and of moderate size: in both modes,
    and for any number of pages asked for. *)
Theorem c41_safe_partial : forall d ms rs, Built d -> Usable d -> FontsInCells d -> PlaceableDefaults d ->
  Meaning ms rs -> Forall (Renderable d) (oks rs) -> Moderate d (oks rs) ->
  forall md n, exists l, pages_take md d n (pages_new d ms) = Val l.
Proof. exact safe. Qed.
Print Assumptions c41_safe_partial.

(** Messages of at most 128 characters are moderate whatever the fonts. *)
Theorem c41_short_partial : forall d ms rs, Built d -> Usable d -> FontsInCells d -> PlaceableDefaults d ->
  Meaning ms rs -> Forall (Renderable d) (oks rs) -> Z.of_nat (List.length ms) <= 128 ->
  forall md n, exists l, pages_take md d n (pages_new d ms) = Val l.
Proof. exact safe_short. Qed.
Print Assumptions c41_short_partial.

(** A message of texts, lines, a text rectangle, drawings and pages, with an
    unknown tag, that meets the hypotheses; it is longer than 128 characters. *)
Definition fx_part : str := lit "[tr1,1,20,12][g1,3,2][cr8,1,2,2,3]A[jl3]BA[nl][jl2]A[hc42][sc2]AA[np]B[xx]".
Definition fx_ms : str := fx_part ++ fx_part ++ fx_part.
Definition fx_rs : list (result Value SyntaxError) := List.concat (repeat
  [Ok (VTextRectangle (mkRect 1 1 20 12)); Ok (VGraphic 1 (Some (3, 2, None)));
   Ok (VColorRectangle (mkRect 8 1 2 2) (Legacy 3)); Ok (VText [65]); Ok (VJustificationLine (Some JlCenter));
   Ok (VText [66; 65]); Ok (VNewLine None); Ok (VJustificationLine (Some JlLeft)); Ok (VText [65]);
   Ok (VHexadecimalCharacter 66); Ok (VSpacingCharacter 2); Ok (VText [65; 65]); Ok VNewPage; Ok (VText [66]);
   Err (SUnsupportedTag (lit "xx"))] 3).
Example c41_example : exists rs, Built lx_d /\ Usable lx_d /\ FontsInCells lx_d /\ PlaceableDefaults lx_d
  /\ Meaning fx_ms rs /\ Forall (Renderable lx_d) (oks rs) /\ Moderate lx_d (oks rs)
  /\ 128 < Z.of_nat (List.length fx_ms) /\ List.length (oks rs) = 42%nat.
Proof.
  assert (exists rs, values Debug fx_ms = map Val rs /\ Forall (Renderable lx_d) (oks rs)
    /\ pieces (oks rs) = 18 /\ breaks (oks rs) = 3 /\ characters (oks rs) = 24
    /\ List.length (oks rs) = 42%nat) as (rs & E & R & P & B & C & L).
  { exists fx_rs. splits; try (vm_compute; reflexivity).
    unfold fx_rs. cbn [repeat app List.concat oks]. repeat constructor; vm_compute; reflexivity. }
  exists rs. destruct px_sign as (S1 & S2 & S3 & _). splits; auto.
  - split; cbn; auto.
  - now apply (values_meaning Debug).
  - apply (moderate_whole lx_d _ 3 99 3 9); try lia.
    unfold FontsWithin. splits; try lia. intros f [<-|[<-|[]]]; cbn; splits; try lia.
    + intros c [<-|[<-|[<-|[<-|[]]]]]; cbn; lia.
    + intros c [<-|[<-|[]]]; cbn; lia.
  - vm_compute. reflexivity.
Qed.

(** The conditions on the sign are not met by every built sign, and rendering
    panics there: fonts lower than the character cells, *)
Definition fx_vms : VmsCfg := mkVmsCfg 12 0 12 20 70 70 (255, 112, 224) (0, 0, 0).
Definition fx_cells : DmsBuilder :=
  mkBuilder sx_sign_cfg fx_vms [sx_font; font_default 2] (sx_multi Color24Bit) [sx_graphic].
Lemma fx_cells_fields : builder_fields fx_cells.
Proof.
  pose proof (sx_builder_fields Color24Bit) as H. unfold builder_fields in *. cbn in *.
  destruct H as (H1 & H2 & H3 & H4 & H5). splits; auto.
  - unfold vms_fields, rgb_ok, u8, u16 in *. cbn in *. splits; lia.
  - constructor; [apply sx_graphic_fields|constructor].
Qed.
Theorem c41_cells_refuted : exists b d, builder_fields b /\ build Debug b = Val (Ok d)
  /\ pages_take Debug d 1 (pages_new d (lit "[jp3]A")) = Panic
  /\ pages_take Release d 1 (pages_new d (lit "[jp3]A")) = Panic.
Proof.
  exists fx_cells. eexists. splits; [apply fx_cells_fields|vm_compute; reflexivity..].
Qed.
Print Assumptions c41_cells_refuted.

(** and default justifications that cannot be placed (both modes). *)
Definition fx_full : DmsBuilder :=
  mkBuilder sx_sign_cfg sx_vms [sx_font; font_default 2]
    (mkMultiCfg (Legacy 0) (Legacy 9) 5 5 1 JlFull JpTop 30 0 2 Color24Bit
       (tag_set [TCb; TCf; TFo; TG; THc; TJl; TJp; TNl; TNp; TPt; TSc; TTr; TCr; TPb]) 4 1000)
    [sx_graphic].
Lemma fx_full_fields : builder_fields fx_full.
Proof.
  pose proof (sx_builder_fields Color24Bit) as H. unfold builder_fields in *. cbn in *.
  destruct H as (H1 & H2 & H3 & H4 & H5). splits; auto.
  constructor; [apply sx_graphic_fields|constructor].
Qed.
Theorem c41_default_refuted : exists b d, builder_fields b /\ build Debug b = Val (Ok d)
  /\ pages_take Debug d 1 (pages_new d (lit "A")) = Panic
  /\ pages_take Release d 1 (pages_new d (lit "A")) = Panic.
Proof.
  exists fx_full. eexists. splits; [apply fx_full_fields|vm_compute; reflexivity..].
Qed.
Print Assumptions c41_default_refuted.

(** ** Release builds

    Under the same conditions both modes render the same pages, so what is proved
    of debug builds in [Properties_Page] holds of release builds. *)

Theorem c41_modes_partial : forall d ms rs, Built d -> Usable d -> FontsInCells d -> PlaceableDefaults d ->
  Meaning ms rs -> Forall (Renderable d) (oks rs) -> Moderate d (oks rs) ->
  forall md md' l, Yields md d ms l -> Yields md' d ms l.
Proof. exact safe_modes. Qed.
Print Assumptions c41_modes_partial.

(** A page that meets the hypotheses in a release build. *)
Example c52_modes_example : exists ps,
  Built lx_d /\ Usable lx_d /\ FontsInCells lx_d /\ PlaceableDefaults lx_d
  /\ Meaning px_page (map Ok px_values) /\ Forall (Renderable lx_d) (oks (map Ok px_values))
  /\ Moderate lx_d (oks (map Ok px_values))
  /\ Yields Release lx_d px_page (map Ok ps) /\ List.length ps = 1%nat.
Proof.
  destruct c52_covered as (HM & _).
  assert (exists ps, Yields Release lx_d px_page (map Ok ps) /\ List.length ps = 1%nat) as (ps & HY & HL).
  { eapply (yields_of Release lx_d px_page 9 1); [vm_compute; reflexivity|cbn; lia|repeat constructor|reflexivity]. }
  exists ps. destruct px_sign as (S1 & S2 & S3 & _). splits; auto.
  - split; cbn; auto.
  - unfold px_values. cbn [map oks]. repeat constructor; vm_compute; reflexivity.
  - apply (moderate_whole lx_d _ 3 99 3 9); try (vm_compute; reflexivity); try lia.
    unfold FontsWithin. splits; try lia. intros f [<-|[<-|[]]]; cbn; splits; try lia.
    + intros c [<-|[<-|[<-|[<-|[]]]]]; cbn; lia.
    + intros c [<-|[<-|[]]]; cbn; lia.
Qed.
