(** Properties C33 to C36: message patterns. *)

From Coq Require Import String.
From Verif Require Import Base Str Multi Color Raster Font Graphic Config Sign Pattern
  Spec_Multi Spec_Color Spec_Font Spec_Tfon Spec_Graphic Spec_Sign Spec_Render Spec_Layout Spec_Page Spec_Pattern
  Proofs_Str Proofs_Norm Proofs_Pages Proofs_Sign Proofs_Place Proofs_Pattern Proofs_Fill Proofs_Lines Examples_Sign Properties_Layout.
Open Scope list_scope.

(** ** C33: widths *)

(** Every pattern without tags that split a character.  With more than 255
    fillable rectangles the [u8] rectangle number overflows: a debug build
    panics, a release build wraps the numbers.  With a fillable rectangle whose
    lines cannot be counted ([c33_endless]) there is no result.  The values [vs]
    kept, the areas [l], their number [k] and the entries [ws] are unique
    ([c33_unique]). *)
Theorem c33_widths_partial : forall md d ms rs, Built d -> Meaning ms rs ->
  exists vs l k, Kept d rs vs /\ PatternAreas d vs l /\ Fillables d l k
    /\ ((exists a, In a l /\ Fillable d a /\ Endless d (ar_font a)) /\ pat_widths Release d ms = Hang
          /\ (k <= 255 -> pat_widths Debug d ms = Hang)
        \/ exists ws, Widths d 0 l ws
          /\ (k <= 255 -> pat_widths md d ms = Val ws)
          /\ (255 < k -> pat_widths Debug d ms = Panic)
          /\ pat_widths Release d ms = Val (map (fun e => let '(w, f, i) := e in (w, f, i mod 256)) ws)).
Proof. exact pattern_widths. Qed.
Print Assumptions c33_widths_partial.

(** Lines can be counted for every font number but 0. *)
Theorem c33_endless : forall d n, Built d -> Endless d n -> n = 0.
Proof. exact built_endless. Qed.
Print Assumptions c33_endless.

Theorem c33_unique : forall d rs vs vs' l l' k k' ws ws',
  Kept d rs vs -> Kept d rs vs' -> PatternAreas d vs l -> PatternAreas d vs' l' ->
  Fillables d l k -> Fillables d l' k' -> Widths d 0 l ws -> Widths d 0 l' ws' ->
  vs = vs' /\ l = l' /\ k = k' /\ ws = ws'.
Proof.
  intros d rs vs vs' l l' k k' ws ws' H H' A A' F F' W W'.
  pose proof (kept_fun _ _ _ H _ H') as <-. pose proof (Areas_fun _ _ _ _ _ A _ A') as <-.
  splits; auto; [eapply fillables_fun|eapply widths_fun]; eauto.
Qed.
Print Assumptions c33_unique.

(** 256 fillable pages on a sign. *)
Definition pt_many : str := List.concat (repeat (lit "[np]") 255).

Theorem c33_refuted : exists b d ms, builder_fields b /\ build Debug b = Val (Ok d)
  /\ default_font (d_multi_cfg d) <> 0 /\ Meaning ms (map Ok (repeat VNewPage 255)) /\ Lists d TNp
  /\ pat_widths Debug d ms = Panic.
Proof.
  exists (sx_builder Color24Bit), lx_d, pt_many. splits.
  - apply sx_builder_fields.
  - vm_compute. reflexivity.
  - discriminate.
  - apply (values_meaning Debug). vm_compute. reflexivity.
  - reflexivity.
  - vm_compute. reflexivity.
Qed.
Print Assumptions c33_refuted.

(** A full-matrix sign with an unused font slot and default font number 0: the
    empty pattern, one fillable page, has no widths. *)
Definition pt_multi0 : MultiCfg :=
  mkMultiCfg (Legacy 0) (Legacy 9) 5 5 0 JlLeft JpTop 30 0 2 Color24Bit
    (tag_set [TCf; TFo; TJl; TJp; TNl; TNp]) 1 1000.
Definition pt_builder0 : DmsBuilder :=
  mkBuilder sx_sign_cfg sx_vms [sx_font; font_default 0] pt_multi0 [graphic_default].

Lemma pt_builder0_fields : builder_fields pt_builder0.
Proof.
  unfold builder_fields, sign_fields, vms_fields, multi_fields, rgb_ok, color_bytes, u8, u16. cbn.
  splits; try lia.
  - pose proof sx_fonts_fields as H. inversion H; subst. repeat constructor; auto;
      unfold font_fields, u8, u16; cbn; splits; try lia; constructor.
  - apply Forall_cons; [|apply Forall_nil]. unfold graphic_fields, u8, u16. cbn. splits; try lia; auto.
Qed.

Theorem c33_hang_refuted : exists b d, builder_fields b /\ build Debug b = Val (Ok d)
  /\ Meaning [] [] /\ forall md, pat_widths md d [] = Hang.
Proof.
  eexists pt_builder0, _. split; [apply pt_builder0_fields|]. split; [vm_compute; reflexivity|].
  split; [apply (values_meaning Debug); reflexivity|]. intros []; vm_compute; reflexivity.
Qed.
Print Assumptions c33_hang_refuted.

(** ** C35: filling *)

(** Every pattern that the sign supports.  Font tags are moved or dropped, see
    [Filled]; [s] is unique ([c35_unique]). *)
Theorem c35_fill_partial : forall md d ms vs l lines,
  Built d -> ~ Endless d (default_font (d_multi_cfg d)) ->
  Meaning ms (map Ok vs) -> Forall (Supports d) vs -> Lists d TNp -> PatternAreas d vs l ->
  exists s, Filled d [] l lines s /\ pat_fill md d ms lines = Val s.
Proof. exact pattern_fill. Qed.
Print Assumptions c35_fill_partial.

Theorem c35_unique : forall d vs l l' lines s s',
  PatternAreas d vs l -> PatternAreas d vs l' -> Filled d [] l lines s -> Filled d [] l' lines s' -> s = s'.
Proof.
  intros d vs l l' lines s s' A A' F F'. pose proof (Areas_fun _ _ _ _ _ A _ A') as <-. eapply filled_fun; eauto.
Qed.
Print Assumptions c35_unique.

(** Every pattern has areas. *)
Theorem c35_areas : forall d vs, exists l, PatternAreas d vs l
  /\ List.concat (map (fun a => ar_values a ++ end_values a) l) = vs.
Proof.
  intros d vs. destruct (Areas_exist d (List.length vs) vs (le_n _) (sign_rect d) (default_font (d_multi_cfg d))) as [l H].
  exists l. split; auto. rewrite <- flat_map_concat_map. now apply areas_values in H.
Qed.
Print Assumptions c35_areas.

(** Without lines, the values are reprinted when font tags come last in fillable
    areas. *)
Theorem c35_none_partial : forall md d ms vs l,
  Built d -> ~ Endless d (default_font (d_multi_cfg d)) ->
  Meaning ms (map Ok vs) -> Forall (Supports d) vs -> Lists d TNp -> PatternAreas d vs l -> FontsLast d l ->
  pat_fill md d ms [] = Val (written vs).
Proof.
  intros md d ms vs l HB Hd HM HS HN HA HL. destruct (pattern_fill md d ms vs l [] HB Hd HM HS HN HA) as (s & F & ->).
  f_equal. rewrite (filled_none d l HL [] s eq_refl F). f_equal. now apply areas_values in HA.
Qed.
Print Assumptions c35_none_partial.

(** Anything malformed or not supported gives the empty string. *)
Theorem c35_refused : forall md d ms rs lines,
  Built d -> ~ Endless d (default_font (d_multi_cfg d)) -> Meaning ms rs ->
  ((exists e, In (Err e) rs) \/ (exists v, In (Ok v) rs /\ ~ Supports d v) \/ ~ Lists d TNp) ->
  pat_fill md d ms lines = Val [].
Proof. exact pattern_fill_refused. Qed.
Print Assumptions c35_refused.

(** A font tag in an area that is not fillable is lost. *)
Theorem c35_refuted : exists b d ms vs, builder_fields b /\ build Debug b = Val (Ok d)
  /\ default_font (d_multi_cfg d) <> 0 /\ Meaning ms (map Ok vs) /\ Forall (Supports d) vs /\ Lists d TNp
  /\ pat_fill Debug d ms [] <> Val (written vs).
Proof.
  exists (sx_builder Color24Bit), lx_d, (lit "[fo1]A"), [VFont (Some (1, None)); VText (lit "A")]. splits.
  - apply sx_builder_fields.
  - vm_compute. reflexivity.
  - discriminate.
  - apply (values_meaning Debug). vm_compute. reflexivity.
  - repeat apply Forall_cons; try apply Forall_nil; apply supp_iff; reflexivity.
  - reflexivity.
  - intros E. vm_compute in E. discriminate E.
Qed.
Print Assumptions c35_refuted.

(** ** C36: signs without the [np] tag *)

(** [fill] always gives the empty string there. *)
Theorem c36_all_refuted : forall md d ms rs lines,
  Built d -> ~ Endless d (default_font (d_multi_cfg d)) -> Meaning ms rs -> ~ Lists d TNp ->
  pat_fill md d ms lines = Val [].
Proof. intros. eapply pattern_fill_refused; eauto. Qed.
Print Assumptions c36_all_refuted.

(** The sign of the examples with one page and without [np]. *)
Definition pt_multi : MultiCfg :=
  mkMultiCfg (Legacy 0) (Legacy 9) 5 5 1 JlLeft JpTop 30 0 2 Color24Bit
    (tag_set [TCf; TFo; TJl; TJp; TNl]) 1 1000.
Definition pt_builder : DmsBuilder := mkBuilder sx_sign_cfg sx_vms [sx_font] pt_multi [graphic_default].
Definition pt_sign : Dms := mkDms sx_sign_cfg sx_vms [sx_font] pt_multi [graphic_default].

Lemma pt_builder_fields : builder_fields pt_builder.
Proof.
  unfold builder_fields, sign_fields, vms_fields, multi_fields, rgb_ok, color_bytes, u8, u16. cbn.
  splits; try lia.
  - pose proof sx_fonts_fields as H. inversion H; subst. constructor; auto.
  - apply Forall_cons; [|apply Forall_nil]. unfold graphic_fields, u8, u16. cbn. splits; try lia; auto.
Qed.

(** The pattern [cf2] on a sign with one page that supports all its tags: room
    for three lines, but the line is not inserted. *)
Theorem c36_refuted : exists b d ms vs, builder_fields b /\ build Debug b = Val (Ok d)
  /\ max_number_pages (d_multi_cfg d) = 1 /\ ~ Lists d TNp
  /\ default_font (d_multi_cfg d) <> 0 /\ Meaning ms (map Ok vs) /\ Forall (Supports d) vs
  /\ RectLines d (sign_rect d) (default_font (d_multi_cfg d)) 3
  /\ pat_fill Debug d ms [lit "AB"] = Val [].
Proof.
  exists pt_builder, pt_sign, (lit "[cf2]"), [VColorForeground (Some (Legacy 2))].
  assert (Built pt_sign) as HB.
  { exists Debug, pt_builder. split; [apply pt_builder_fields|]. vm_compute. reflexivity. }
  splits.
  - apply pt_builder_fields.
  - vm_compute. reflexivity.
  - reflexivity.
  - intros E. discriminate E.
  - discriminate.
  - apply (values_meaning Debug). vm_compute. reflexivity.
  - repeat apply Forall_cons; try apply Forall_nil; apply supp_iff; reflexivity.
  - destruct (Built_parts pt_sign HB) as (T & _ & F).
    apply rect_lines_iff; auto; [now apply u16_sign|discriminate].
  - vm_compute. reflexivity.
Qed.
Print Assumptions c36_refuted.

(** ** C34: lines *)

(** Lines of text and of the tags that [lines] accepts inside them.  Missing:
    patterns in which two texts are separated by font tags only, or with a
    hexadecimal character from 10 (C06); they are refuted below. *)
Theorem c34_lines_partial : forall md d ms vs l lines,
  Built d -> ~ Endless d (default_font (d_multi_cfg d)) ->
  Meaning ms (map Ok vs) -> Forall (Supports d) vs -> Lists d TNp -> PatternAreas d vs l ->
  Forall small_hex vs -> TextsApart l ->
  Forall LineText lines -> TotalRoom d l (Z.of_nat (List.length lines)) ->
  exists s, pat_fill md d ms lines = Val s /\ pat_lines md d ms s = Val lines.
Proof. exact pattern_lines. Qed.
Print Assumptions c34_lines_partial.

(** A pattern of four areas with room for three lines on its first page and one
    in a text rectangle. *)
Definition pt_pattern : str := lit "[np][tr1,1,20,6][jl3][fo1][np]A".
Definition pt_rect : Rectangle := mkRect 1 1 20 6.
Definition pt_full : Rectangle := mkRect 1 1 20 12.
Definition pt_values : list Value :=
  [VNewPage; VTextRectangle pt_rect; VJustificationLine (Some JlCenter); VFont (Some (1, None));
   VNewPage; VText (lit "A")].
Definition pt_areas : list Area :=
  [mkArea pt_full 1 [] (Some VNewPage);
   mkArea pt_full 1 [] (Some (VTextRectangle pt_rect));
   mkArea pt_rect 1 [VJustificationLine (Some JlCenter); VFont (Some (1, None))] (Some VNewPage);
   mkArea pt_full 1 [VText (lit "A")] None].
Definition pt_lines : list str := [lit "AB"; []; lit "[cf2]B[["; lit "A"].

Lemma pt_built : Built lx_d.
Proof. exists Debug, (sx_builder Color24Bit). split; [apply sx_builder_fields|]. vm_compute. reflexivity. Qed.

Lemma pt_room r n : u16_rect r -> rect_lines lx_d r 1 = Val n -> RectLines lx_d r 1 n.
Proof.
  intros Hr E. destruct (Built_parts lx_d pt_built) as (T & _ & F).
  apply rect_lines_iff; auto. rewrite E. discriminate.
Qed.

Ltac fillable := apply fillableb_iff; reflexivity.
Ltac not_fillable := apply fillableb_false; reflexivity.

Example pt_hypotheses :
  ~ Endless lx_d (default_font (d_multi_cfg lx_d)) /\ Meaning pt_pattern (map Ok pt_values) /\ Forall (Supports lx_d) pt_values
  /\ Lists lx_d TNp /\ PatternAreas lx_d pt_values pt_areas /\ Forall small_hex pt_values /\ TextsApart pt_areas
  /\ FontsLast lx_d pt_areas
  /\ Forall LineText pt_lines /\ TotalRoom lx_d pt_areas (Z.of_nat (List.length pt_lines)).
Proof.
  assert (u16_rect pt_full /\ u16_rect pt_rect) as [Uf Ur] by (unfold u16_rect, u16; cbn; lia).
  splits.
  - intros E. apply (c33_endless _ _ pt_built) in E. discriminate E.
  - apply (values_meaning Debug). vm_compute. reflexivity.
  - unfold pt_values. repeat apply Forall_cons; try apply Forall_nil; apply supp_iff; reflexivity.
  - reflexivity.
  - apply (Ar_page lx_d pt_full 1 []); [intros ? []|]. apply (Ar_rect lx_d pt_full 1 []); [intros ? []|].
    apply (Ar_page lx_d pt_rect 1 [VJustificationLine (Some JlCenter); VFont (Some (1, None))]).
    + intros v [<-|[<-|[]]] [].
    + apply Ar_last. intros v [<-|[]] [].
  - unfold pt_values. repeat apply Forall_cons; try apply Forall_nil; exact I.
  - intros a H x t u y E. unfold pt_areas in H.
    destruct H as [<-|[<-|[<-|[<-|[]]]]]; cbn in E; destruct x as [|? [|? x]]; discriminate E.
  - intros a H x f y E. destruct H as [<-|[<-|[<-|[<-|[]]]]]; cbn in E.
    + destruct x; discriminate E.
    + destruct x; discriminate E.
    + destruct x as [|? [|? [|? x]]]; try discriminate E. cbn in E. injection E as _ _ <-. split; auto. fillable.
    + destruct x as [|? [|? x]]; discriminate E.
  - unfold pt_lines. repeat apply Forall_cons; try apply Forall_nil.
    + exists [VText (lit "AB")]. split; [apply (values_meaning Debug); vm_compute; reflexivity|]. repeat constructor.
    + exists []. split; [apply (values_meaning Debug); vm_compute; reflexivity|constructor].
    + exists [VColorForeground (Some (Legacy 2)); VText (lit "B"); VText (lit "[")].
      split; [apply (values_meaning Debug); vm_compute; reflexivity|]. repeat constructor.
    + exists [VText (lit "A")]. split; [apply (values_meaning Debug); vm_compute; reflexivity|]. repeat constructor.
  - change (Z.of_nat (List.length pt_lines)) with (3 + (1 + 0)).
    apply Tr_fill; [fillable|apply pt_room; [exact Uf|vm_compute; reflexivity]|].
    apply Tr_other; [not_fillable|].
    apply Tr_fill; [fillable|apply pt_room; [exact Ur|vm_compute; reflexivity]|].
    apply Tr_other; [not_fillable|]. constructor.
Qed.

Example pt_results :
  pat_widths Debug lx_d pt_pattern = Val [(20, 1, 0); (20, 1, 0); (20, 1, 0); (20, 1, 1)]
  /\ pat_fill Debug lx_d pt_pattern pt_lines = Val (lit "AB[nl][nl][cf2]B[[[np][tr1,1,20,6][jl3]A[fo1][np]A")
  /\ pat_lines Debug lx_d pt_pattern (lit "AB[nl][nl][cf2]B[[[np][tr1,1,20,6][jl3]A[fo1][np]A") = Val pt_lines
  /\ pat_fill Debug lx_d pt_pattern [] = Val pt_pattern
  /\ pat_fill Debug lx_d (lit "[np][xx]") [] = Val [].
Proof. splits; vm_compute; reflexivity. Qed.

(** The two texts [A] and [B] are joined when the font tag between them is
    dropped, and the lines are not found again. *)
Theorem c34_refuted : exists b d ms vs l lines s, builder_fields b /\ build Debug b = Val (Ok d)
  /\ default_font (d_multi_cfg d) <> 0 /\ Meaning ms (map Ok vs) /\ Forall (Supports d) vs /\ Lists d TNp
  /\ PatternAreas d vs l /\ Forall small_hex vs
  /\ Forall LineText lines /\ TotalRoom d l (Z.of_nat (List.length lines))
  /\ pat_fill Debug d ms lines = Val s /\ pat_lines Debug d ms s <> Val lines.
Proof.
  assert (u16_rect pt_full) as Uf by (unfold u16_rect, u16; cbn; lia).
  exists (sx_builder Color24Bit), lx_d, (lit "A[fo1]B[np]"),
    [VText (lit "A"); VFont (Some (1, None)); VText (lit "B"); VNewPage],
    [mkArea pt_full 1 [VText (lit "A"); VFont (Some (1, None)); VText (lit "B")] (Some VNewPage);
     mkArea pt_full 1 [] None], [lit "A"; lit "A"; lit "A"], (lit "AB[np]A[nl]A[nl]A[fo1]"). splits.
  - apply sx_builder_fields.
  - vm_compute. reflexivity.
  - discriminate.
  - apply (values_meaning Debug). vm_compute. reflexivity.
  - repeat apply Forall_cons; try apply Forall_nil; apply supp_iff; reflexivity.
  - reflexivity.
  - apply (Ar_page lx_d pt_full 1 [VText (lit "A"); VFont (Some (1, None)); VText (lit "B")]).
    + intros v [<-|[<-|[<-|[]]]] [].
    + apply Ar_last. intros v [].
  - repeat apply Forall_cons; try apply Forall_nil; exact I.
  - assert (LineText (lit "A")).
    { exists [VText (lit "A")]. split; [apply (values_meaning Debug); vm_compute; reflexivity|]. repeat constructor. }
    repeat apply Forall_cons; try apply Forall_nil; assumption.
  - apply Tr_other; [not_fillable|]. change (Z.of_nat (List.length [lit "A"; lit "A"; lit "A"])) with (3 + 0).
    apply Tr_fill; [fillable|apply pt_room; [exact Uf|vm_compute; reflexivity]|constructor].
  - vm_compute. reflexivity.
  - intros E. vm_compute in E. discriminate E.
Qed.
Print Assumptions c34_refuted.
