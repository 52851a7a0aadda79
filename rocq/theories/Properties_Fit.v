(** Property C64: lines that fit the widths of a pattern render. *)

From Coq Require Import String.
From Verif Require Import Base Str Multi Color Raster Font Graphic Config Sign Render Pattern
  Spec_Multi Spec_Color Spec_Font Spec_Tfon Spec_Graphic Spec_Sign Spec_Render Spec_Layout Spec_Page Spec_Safe Spec_Pattern Spec_Fit
  Proofs_Str Proofs_Font Proofs_Norm Proofs_Pages Proofs_Sign Proofs_Pattern Proofs_Fill Proofs_Lines Proofs_FitFill
  Examples_Sign Properties_Render Properties_Layout Properties_Page Properties_Pattern.
Open Scope list_scope.

(** A pattern that renders without lines also renders with lines that fit, in both
    builds, with the same number of pages shown for the same times.  Not the whole
    claim: lines have no tags, the pattern does not change the spacing, it has font
    tags in fillable areas only and no hexadecimal characters there, and the sign
    is one whose text can be placed (see C41). *)
Theorem c64_fits_partial : forall md mw d ms vs l ws lines s0 s ps0,
  Built d -> ~ Endless d (default_font (d_multi_cfg d)) ->
  Usable d -> FontsInCells d -> PlaceableDefaults d ->
  Meaning ms (map Ok vs) -> Forall (Supports d) vs -> Lists d TNp -> Lists d TNl -> PatternAreas d vs l ->
  TextsApart l -> Forall (fit_value d) vs -> Forall (fit_area d) l ->
  (List.length lines <= 256)%nat ->
  pat_widths mw d ms = Val ws -> AllFit d ws lines ->
  pat_fill md d ms [] = Val s0 -> Yields Debug d s0 (map Ok ps0) ->
  pat_fill md d ms lines = Val s ->
  exists ps, (forall md', Yields md' d s (map Ok ps)) /\ map pg_duration ps = map pg_duration ps0.
Proof. exact fit_pattern. Qed.
Print Assumptions c64_fits_partial.

Ltac spelled := repeat first [apply Forall2_nil | apply Forall2_cons; [apply character_spec; reflexivity|]].

Definition ft_a : CharacterEntry := mkChar 65 3 [87; 128].
Definition ft_b : CharacterEntry := mkChar 66 2 [252].

Lemma ft_fits d f t cs w n i : (exists pre post, d_fonts d = pre ++ f :: post /\ forall g, In g pre -> f_number g <> n) ->
  f_number f = n -> Spells f t cs ->
  forallb (fun c => (1 <=? c) && (c <=? 255) && negb (c =? 91) && negb (c =? 93)) t = true ->
  line_width (f_char_spacing f) (map c_width cs) <=? w = true -> LineFits d (w, n, i) t.
Proof.
  intros HF Hn HS Ht Hw. rewrite forallb_forall in Ht.
  assert (forall c, In c t -> 1 <= c <= 255 /\ c <> 91 /\ c <> 93) as K.
  { intros c I. specialize (Ht c I). lia. }
  split; [|split].
  - apply Forall_forall. intros c I. apply K in I. tauto.
  - apply Forall_forall. intros c I. apply K in I. unfold text_char. tauto.
  - exists f, cs. splits; auto; [split; auto|lia].
Qed.

Definition ft_lines : list str := [lit "AB"; []; lit "BAB"; lit "AA"].

Lemma ft_line t cs w i : Spells sx_font t cs ->
  forallb (fun c => (1 <=? c) && (c <=? 255) && negb (c =? 91) && negb (c =? 93)) t = true ->
  line_width (f_char_spacing sx_font) (map c_width cs) <=? w = true -> LineFits lx_d (w, 1, i) t.
Proof. intros H1 H2 H3. apply (ft_fits lx_d sx_font t cs); auto. exists [], [font_default 2]. split; auto; intros g []. Qed.

(** All hypotheses are met by a pattern of three pages with four lines. *)
Example c64_example : exists ws s0 ps0 s,
  Built lx_d /\ ~ Endless lx_d (default_font (d_multi_cfg lx_d))
  /\ Usable lx_d /\ FontsInCells lx_d /\ PlaceableDefaults lx_d
  /\ Meaning pt_pattern (map Ok pt_values) /\ Forall (Supports lx_d) pt_values /\ Lists lx_d TNp /\ Lists lx_d TNl
  /\ PatternAreas lx_d pt_values pt_areas
  /\ TextsApart pt_areas /\ Forall (fit_value lx_d) pt_values /\ Forall (fit_area lx_d) pt_areas
  /\ (List.length ft_lines <= 256)%nat
  /\ pat_widths Debug lx_d pt_pattern = Val ws /\ AllFit lx_d ws ft_lines
  /\ pat_fill Debug lx_d pt_pattern [] = Val s0 /\ Yields Debug lx_d s0 (map Ok ps0) /\ List.length ps0 = 3%nat
  /\ pat_fill Debug lx_d pt_pattern ft_lines = Val s
  /\ s = lit "AB[nl][nl]BAB[np][tr1,1,20,6][jl3]AA[fo1][np]A".
Proof.
  destruct pt_hypotheses as (P1 & P2 & P3 & P4 & P5 & P6 & P7 & _). destruct px_sign as (S1 & S2 & S3 & _).
  destruct pt_results as (R1 & _ & _ & R4 & _).
  assert (exists ps, Yields Debug lx_d pt_pattern (map Ok ps) /\ List.length ps = 3%nat) as (ps0 & HY & HL).
  { eapply (yields_of Debug lx_d pt_pattern 9 3); [vm_compute; reflexivity|cbn; lia|repeat constructor|reflexivity]. }
  exists [(20, 1, 0); (20, 1, 0); (20, 1, 0); (20, 1, 1)], pt_pattern, ps0,
    (lit "AB[nl][nl]BAB[np][tr1,1,20,6][jl3]AA[fo1][np]A").
  splits; auto.
  - split; cbn; auto.
  - unfold pt_values. repeat apply Forall_cons; try apply Forall_nil; exact I.
  - unfold pt_areas. repeat apply Forall_cons; try apply Forall_nil; unfold fit_area; cbn [ar_values];
      (split; [intros f Hf|intros _ c Hc]);
      try (destruct Hf as [E|[E|[]]]; discriminate E); try (destruct Hc as [E|[E|[]]]; discriminate E);
      try (destruct Hf as [E|[]]; discriminate E); try (destruct Hc as [E|[]]; discriminate E); try destruct Hf; try destruct Hc.
    all: fillable.
  - unfold ft_lines. cbn. lia.
  - intros k e t E1 E2. destruct k as [|[|[|[|k]]]]; try (destruct k; discriminate E1); injection E1 as <-; injection E2 as <-.
    + apply (ft_line _ [ft_a; ft_b]); [spelled|reflexivity..].
    + apply (ft_line _ []); [spelled|reflexivity..].
    + apply (ft_line _ [ft_b; ft_a; ft_b]); [spelled|reflexivity..].
    + apply (ft_line _ [ft_a; ft_a]); [spelled|reflexivity..].
Qed.

(** A hexadecimal character is reprinted as another one, that of 'A' here; the
    pattern still renders, without lines and with a line on its second page. *)
Example c64_hex_example : exists ps0 ps,
  Meaning (lit "A[hc29][np]") (map Ok [VText (lit "A"); VHexadecimalCharacter 41; VNewPage])
  /\ pat_widths Debug lx_d (lit "A[hc29][np]") = Val [(20, 1, 0); (20, 1, 0); (20, 1, 0)]
  /\ pat_fill Debug lx_d (lit "A[hc29][np]") [] = Val (lit "A[hc41][np]")
  /\ pat_fill Debug lx_d (lit "A[hc29][np]") [lit "BA"] = Val (lit "A[hc41][np]BA")
  /\ Yields Debug lx_d (lit "A[hc41][np]") (map Ok ps0) /\ List.length ps0 = 2%nat
  /\ Yields Debug lx_d (lit "A[hc41][np]BA") (map Ok ps) /\ List.length ps = 2%nat.
Proof.
  assert (exists ps, Yields Debug lx_d (lit "A[hc41][np]") (map Ok ps) /\ List.length ps = 2%nat) as (ps0 & H0 & L0)
    by (eapply (yields_of Debug lx_d _ 9 2); [vm_compute; reflexivity|cbn; lia|repeat constructor|reflexivity]).
  assert (exists ps, Yields Debug lx_d (lit "A[hc41][np]BA") (map Ok ps) /\ List.length ps = 2%nat) as (ps & H & L)
    by (eapply (yields_of Debug lx_d _ 9 2); [vm_compute; reflexivity|cbn; lia|repeat constructor|reflexivity]).
  exists ps0, ps. splits; auto; try (vm_compute; reflexivity). apply (values_meaning Debug). vm_compute. reflexivity.
Qed.

(** ** Why the claim does not hold for all patterns *)

(** The pattern renders, the lines fit, but the filled pattern does not render. *)
Definition FitsNot (d : Dms) (ms : str) (lines : list str) (s : str) (e : SyntaxError) : Prop :=
  exists ws s0 ps0, pat_widths Debug d ms = Val ws /\ AllFit d ws lines
    /\ pat_fill Debug d ms [] = Val s0 /\ Yields Debug d s0 (map Ok ps0)
    /\ pat_fill Debug d ms lines = Val s /\ Yields Debug d s [Err e].

(** [fill] writes a font tag that comes before a text rectangle after the lines of
    it, although [widths] gives that font for them. *)
Definition ft_font : Font := mkFont 2 (lit "thin") 3 1 1 [mkChar 65 1 [224]; mkChar 0 0 []].
Definition ft_builder : DmsBuilder :=
  mkBuilder sx_sign_cfg sx_vms [sx_font; ft_font] (sx_multi Color24Bit) [graphic_default].
Definition ft_sign : Dms := mkDms sx_sign_cfg sx_vms [sx_font; ft_font] (sx_multi Color24Bit) [graphic_default].

Lemma ft_builder_fields : builder_fields ft_builder.
Proof.
  pose proof (sx_builder_fields Color24Bit) as H. unfold builder_fields in *. cbn in *.
  destruct H as (H1 & H2 & H3 & H4 & H5). splits; auto.
  - unfold table_fields. repeat constructor; unfold u8, u16; cbn; try lia;
      repeat constructor; unfold u8, u16; cbn; try lia.
  - apply Forall_cons; [|apply Forall_nil]. unfold graphic_fields, u8, u16. cbn. splits; try lia; auto.
Qed.

Lemma ft_entry d ms w n i t s s0 e k : pat_widths Debug d ms = Val [(w, n, i)] -> LineFits d (w, n, i) t ->
  pat_fill Debug d ms [] = Val s0 -> shapes (pages_take Debug d 9 (pages_new d s0)) = Val [ShPage 20 12 k] ->
  pat_fill Debug d ms [t] = Val s -> pages_take Debug d 9 (pages_new d s) = Val [Err e] -> FitsNot d ms [t] s e.
Proof.
  intros HW HL H0 HS HF HP.
  destruct (yields_of Debug d s0 9 1 _ HS) as (ps0 & HY & _); [cbn; lia|repeat constructor|reflexivity|].
  exists [(w, n, i)], s0, ps0. splits; auto.
  - intros j e' u E1 E2. destruct j as [|j]; [|destruct j; discriminate E1]. injection E1 as <-. injection E2 as <-. exact HL.
  - exists 9%nat. split; [exact HP|cbn; lia].
Qed.

Theorem c64_font_refuted : exists b d, builder_fields b /\ build Debug b = Val (Ok d)
  /\ pat_widths Debug d (lit "[fo2][tr1,1,2,3]") = Val [(2, 2, 0)]
  /\ FitsNot d (lit "[fo2][tr1,1,2,3]") [lit "A"] (lit "[tr1,1,2,3]A[fo2]") STextTooBig.
Proof.
  exists ft_builder, ft_sign. splits; [apply ft_builder_fields|vm_compute; reflexivity..|].
  eapply ft_entry; [vm_compute; reflexivity| |vm_compute; reflexivity..].
  apply (ft_fits _ ft_font _ [mkChar 65 1 [224]]); [|reflexivity|spelled|reflexivity..].
  exists [sx_font], []. split; auto. intros g [<-|[]]. discriminate.
Qed.
Print Assumptions c64_font_refuted.

(** [widths] does not account for a change of the character spacing, *)
Theorem c64_spacing_refuted : exists b d, builder_fields b /\ build Debug b = Val (Ok d)
  /\ FitsNot d (lit "[tr1,1,12,3][sc9]") [lit "AA"] (lit "[tr1,1,12,3][sc9]AA") STextTooBig.
Proof.
  exists (sx_builder Color24Bit), lx_d. splits; [apply sx_builder_fields|vm_compute; reflexivity|].
  eapply ft_entry; [vm_compute; reflexivity| |vm_compute; reflexivity..].
  apply (ft_line _ [ft_a; ft_a]); [spelled|reflexivity..].
Qed.
Print Assumptions c64_spacing_refuted.

(** nor for characters given in hexadecimal, *)
Definition ft_tabs : Font := mkFont 1 (lit "tabs") 3 1 1 [ft_a; mkChar 9 3 [87; 128]; mkChar 0 0 []].
Definition ft_tab_builder : DmsBuilder :=
  mkBuilder sx_sign_cfg sx_vms [ft_tabs] (sx_multi Color24Bit) [graphic_default].
Definition ft_tab_sign : Dms := mkDms sx_sign_cfg sx_vms [ft_tabs] (sx_multi Color24Bit) [graphic_default].

Lemma ft_tab_fields : builder_fields ft_tab_builder.
Proof.
  pose proof (sx_builder_fields Color24Bit) as H. unfold builder_fields in *. cbn in *.
  destruct H as (H1 & H2 & H3 & H4 & H5). splits; auto.
  - unfold table_fields. repeat constructor; unfold u8, u16; cbn; try lia;
      repeat constructor; unfold u8, u16; cbn; try lia.
  - apply Forall_cons; [|apply Forall_nil]. unfold graphic_fields, u8, u16. cbn. splits; try lia; auto.
Qed.

Theorem c64_hex_refuted : exists b d, builder_fields b /\ build Debug b = Val (Ok d)
  /\ FitsNot d (lit "[tr1,1,9,3][hc9]") [lit "AA"] (lit "[tr1,1,9,3][hc9]AA") STextTooBig.
Proof.
  exists ft_tab_builder, ft_tab_sign. splits; [apply ft_tab_fields|vm_compute; reflexivity|].
  eapply ft_entry; [vm_compute; reflexivity| |vm_compute; reflexivity..].
  apply (ft_fits _ ft_tabs _ [ft_a; ft_a]); [|reflexivity|spelled|reflexivity..].
  exists [], []. split; auto; intros g [].
Qed.
Print Assumptions c64_hex_refuted.

(** and a font of which the sign has another version is found wrong only when text
    is shown in it. *)
Theorem c64_version_refuted : exists b d, builder_fields b /\ build Debug b = Val (Ok d)
  /\ FitsNot d (lit "[tr1,1,20,3][fo1,0001][tr1,4,20,3]") [[]; lit "A"] (lit "[tr1,1,20,3][fo1,0001][tr1,4,20,3]A") SFontVersionID.
Proof.
  exists (sx_builder Color24Bit), lx_d. splits; [apply sx_builder_fields|vm_compute; reflexivity|].
  destruct (yields_of Debug lx_d (lit "[tr1,1,20,3][fo1,0001][tr1,4,20,3]") 9 1 [ShPage 20 12 30]) as (ps0 & HY & _);
    [vm_compute; reflexivity|cbn; lia|repeat constructor|reflexivity|].
  exists [(20, 1, 0); (20, 1, 1)], (lit "[tr1,1,20,3][fo1,0001][tr1,4,20,3]"), ps0.
  split; [vm_compute; reflexivity|]. split; [|split; [vm_compute; reflexivity|split; [exact HY|split; [vm_compute; reflexivity|]]]].
  - intros j e u E1 E2. destruct j as [|[|j]]; [| |destruct j; discriminate E1]; injection E1 as <-; injection E2 as <-.
    + apply (ft_line _ []); [spelled|reflexivity..].
    + apply (ft_line _ [ft_a]); [spelled|reflexivity..].
  - exists 9%nat. split; [vm_compute; reflexivity|cbn; lia].
Qed.
Print Assumptions c64_version_refuted.
