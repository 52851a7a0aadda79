(** Property C55: why a message is not rendered. *)

From Coq Require Import String.
From Verif Require Import Base Str Multi Color Raster Font Graphic Config Sign Render
  Spec_Multi Spec_Color Spec_Font Spec_Tfon Spec_Graphic Spec_Sign Spec_Render Spec_Layout Spec_Page Spec_Safe Spec_Fail
  Proofs_Str Proofs_Norm Proofs_Render Proofs_Page Proofs_Safe Proofs_Text Proofs_Fail Proofs_Verdict Proofs_First Proofs_Unique
  Examples_Sign Properties_Render Properties_Layout Properties_Page Properties_Safe.
Open Scope list_scope.

(** ** The cause of every error *)

(** When a message gives an error after the pages [ps], then the pages before are
    drawn without fault, and what follows has the fault the error names. *)
Theorem c55_cause_partial : forall d n ms ps e l, Built d ->
  pages_take Debug d n (pages_new d ms) = Val (map Ok ps ++ Err e :: l) -> MessageFails d ms ps e.
Proof. exact fail_message. Qed.
Print Assumptions c55_cause_partial.

(** When a message gives only pages, nothing is wrong with any of them. *)
Theorem c55_accepted_partial : forall d ms ps, Built d -> Yields Debug d ms (map Ok ps) ->
  MessageAccepted d ms ps.
Proof. exact accepted_message. Qed.
Print Assumptions c55_accepted_partial.

(** Messages on the sign of [px_sign] that fail after two pages: with text too
    wide, a font that is not there, justification backwards, a character not in
    the font, a graphic off the sign, a colour not on the sign, a text rectangle
    off the sign, a tag that cannot be followed, and a tag not known. *)
Definition ex_fails (bad : str) (e : SyntaxError) : Prop :=
  exists ps l, let ms := lit "[pt9o5]A[nl]B[np]" ++ bad in List.length ps = 2%nat
    /\ pages_take Debug lx_d 3 (pages_new lx_d ms) = Val (map Ok ps ++ Err e :: l).

Lemma ex_fails_of bad e a b c a' b' c' :
  shapes (pages_take Debug lx_d 3 (pages_new lx_d (lit "[pt9o5]A[nl]B[np]" ++ bad)))
  = Val [ShPage a b c; ShPage a' b' c'; ShErr e] -> ex_fails bad e.
Proof.
  intros H. apply shapes_val in H as (r & H & E).
  destruct r as [|[p|] [|[q|] [|[x|f] [|]]]]; try discriminate E. injection E as _ _ _ _ _ _ ->.
  exists [p; q], []. cbv zeta. split; auto.
Qed.

Example c55_cause_examples :
  ex_fails (lit "AAAAAAAAAAAAAAAAAAAA") STextTooBig
  /\ ex_fails (lit "[fo7]A") (SFontNotDefined 7)
  /\ ex_fails (lit "[jl4]A[jl2]B") STagConflict
  /\ ex_fails (lit "Az") (SCharacterNotDefined 122)
  /\ ex_fails (lit "A[g1,19,12]") (SOther (lit "Graphic too big"))
  /\ ex_fails (lit "A[tr1,1,99,5]B") (SUnsupportedTagValue (lit "[tr1,1,99,5]"))
  /\ ex_fails (lit "[cf77]A") (SUnsupportedTagValue (lit "[cf77]"))
  /\ ex_fails (lit "[jl5]A") (SUnsupportedTagValue (lit "[jl5]"))
  /\ ex_fails (lit "A[zz]B") (SUnsupportedTag (lit "zz")).
Proof.
  splits; (eapply ex_fails_of; vm_compute; reflexivity).
Qed.

(** When the text of a page has several faults, the first span that cannot be
    placed tells: a character before a font in one run; text too wide before a
    character on the next line; a font anywhere in the block before a character on
    another line; and justification before everything. *)
Example c55_first_examples :
  ex_fails (lit "z[fo7]A") (SCharacterNotDefined 122)
  /\ ex_fails (lit "[fo7]A[fo1]z") (SFontNotDefined 7)
  /\ ex_fails (lit "AAAAAAAAAAAAAAAAAAAA[nl]z") STextTooBig
  /\ ex_fails (lit "A[nl]z[nl][fo7]B") (SFontNotDefined 7)
  /\ ex_fails (lit "z[jl4]A[jl2]B") STagConflict.
Proof.
  splits; (eapply ex_fails_of; vm_compute; reflexivity).
Qed.

(** ** Nothing is both drawn and wrong *)

(** A message does not both have a fault and have none; and all its descriptions
    agree on the number of pages before the fault, and on whether it is an error,
    and which, or a panic. *)
Theorem c55_exclusive : forall d ms ps f, MessageStops d ms ps f ->
  (forall ps', ~ MessageAccepted d ms ps')
  /\ (forall ps' f', MessageStops d ms ps' f' -> List.length ps' = List.length ps /\ f' = f).
Proof.
  intros d ms ps f H. split.
  - intros ps' HA. exact (excl_message d ms ps' ps f HA H).
  - intros ps' f' H'. split; [exact (same_message d ms ps' ps f' f H' H)|exact (same_fault d ms ps' ps f' f H' H)].
Qed.
Print Assumptions c55_exclusive.

(** In debug builds, whatever the message does: it gives pages only exactly when
    nothing is wrong with it, gives the error [e] after [k] pages exactly when
    that is its first fault, and panics after [k] pages exactly when its first
    fault is a crash or an overflow. *)
Theorem c55_exact_debug_partial : forall d ms, Built d ->
  ((exists ps, Yields Debug d ms (map Ok ps)) <-> exists ps, MessageAccepted d ms ps)
  /\ (forall k e, (exists n ps l, List.length ps = k /\ pages_take Debug d n (pages_new d ms) = Val (map Ok ps ++ Err e :: l))
        <-> exists ps, List.length ps = k /\ MessageFails d ms ps e)
  /\ forall k, (exists ps, List.length ps = k /\ pages_take Debug d k (pages_new d ms) = Val (map Ok ps)
                  /\ pages_take Debug d (S k) (pages_new d ms) = Panic)
        <-> exists ps, List.length ps = k /\ MessagePanics d ms ps.
Proof. exact exact_debug. Qed.
Print Assumptions c55_exact_debug_partial.

(** Every message does one of the three. *)
Theorem c55_total_debug_partial : forall d ms, Built d ->
  exists ps, MessageAccepted d ms ps \/ exists f, MessageStops d ms ps f.
Proof.
  intros d ms HB. destruct (total_debug d ms) as [(ps & H)|[(n & ps & e & l & H)|(ps & H & H')]]; exists ps.
  - left. now apply accepted_message.
  - right. exists (Reported e). eapply fail_message; eauto.
  - right. destruct (panic_message d ms ps HB H H') as (f & _ & X). eauto.
Qed.
Print Assumptions c55_total_debug_partial.

(** C41 in debug builds: the messages that panic, exactly.  The first fault of
    the message is a piece that panics when it is read (a tag splitting a
    character), a tag that is not rendered, an edge past 16 bits, a 256th text
    of a line or line of a block, a text or a run or stack of them of 2^16 pixels
    or more, text above the sign, glyphs that reach off the sign (of a font 0 that
    validation skips), or a default justification that cannot be placed. *)
Theorem c41_exact_debug_partial : forall d ms, Built d ->
  forall k, (exists ps, List.length ps = k /\ pages_take Debug d k (pages_new d ms) = Val (map Ok ps)
               /\ pages_take Debug d (S k) (pages_new d ms) = Panic)
    <-> exists ps, List.length ps = k /\ MessagePanics d ms ps.
Proof. intros d ms HB. exact (proj2 (proj2 (exact_debug d ms HB))). Qed.
Print Assumptions c41_exact_debug_partial.

(** Messages that panic after two pages: with a colour rectangle and a text
    rectangle with edges past 16 bits (that of an unknown colour is an error
    instead), 256 texts, 256 lines, and a tag that splits a character (an unknown
    tag before it is an error instead). *)
Definition ex_panics (bad : str) : Prop :=
  exists ps, let ms := lit "[pt9o5]A[nl]B[np]" ++ bad in List.length ps = 2%nat
    /\ pages_take Debug lx_d 2 (pages_new lx_d ms) = Val (map Ok ps)
    /\ pages_take Debug lx_d 3 (pages_new lx_d ms) = Panic.

Lemma ex_panics_of bad a b c a' b' c' :
  shapes (pages_take Debug lx_d 2 (pages_new lx_d (lit "[pt9o5]A[nl]B[np]" ++ bad)))
  = Val [ShPage a b c; ShPage a' b' c'] ->
  pages_take Debug lx_d 3 (pages_new lx_d (lit "[pt9o5]A[nl]B[np]" ++ bad)) = Panic -> ex_panics bad.
Proof.
  intros H H'. apply shapes_val in H as (r & H & E).
  destruct r as [|[p|] [|[q|] [|]]]; try discriminate E.
  exists [p; q]. cbv zeta. split; auto.
Qed.

Example c41_exact_examples :
  ex_panics (lit "A[cr9,1,65535,5,3]")
  /\ ex_fails (lit "A[cr9,1,65535,5,77]") (SUnsupportedTagValue (lit "[cr9,1,65535,5,77]"))
  /\ ex_panics (lit "A[tr9,1,65535,5]B")
  /\ ex_panics (List.concat (repeat (lit "[hc41]") 256))
  /\ ex_panics (List.concat (repeat (lit "[nl]") 256))
  /\ ex_panics (lit "A[mvl" ++ [233] ++ lit "]")
  /\ ex_fails (lit "A[zz]B[mvl" ++ [233] ++ lit "]") (SUnsupportedTag (lit "zz")).
Proof.
  repeat match goal with |- _ /\ _ => split end;
    first [eapply ex_panics_of; [vm_compute; reflexivity|vm_compute; reflexivity]
          |eapply ex_fails_of; vm_compute; reflexivity].
Qed.

(** Validation skips fonts with number 0, and 0 may be the default font: a glyph
    with too many bytes reaches off the sign, or below its own line. *)
Definition fx_odd : Font := mkFont 0 (lit "odd") 3 1 1 [mkChar 65 1 (repeat 255 14); mkChar 66 1 [255; 255]].
Definition fx_builder0 : DmsBuilder :=
  mkBuilder sx_sign_cfg sx_vms [sx_font; fx_odd]
    (mkMultiCfg (Legacy 0) (Legacy 9) 5 5 0 JlLeft JpTop 30 0 2 Color24Bit (tag_set [TNl; TNp]) 4 1000) [sx_graphic].

Lemma fx_builder0_fields : builder_fields fx_builder0.
Proof.
  destruct (sx_builder_fields Color24Bit) as (H1 & H2 & H3 & H4 & H5).
  split; [exact H1|]. split; [exact H2|]. split; [|split].
  - unfold multi_fields, color_bytes, u8 in *. cbn in *. lia.
  - constructor; [now inversion H4|]. constructor; auto.
    unfold font_fields, u8. cbn -[repeat]. splits; try lia. repeat constructor; cbn -[repeat]; unfold u8, u16; try lia;
      try (apply Forall_forall; intros z Hz; apply repeat_spec in Hz; subst; lia); repeat constructor; lia.
  - constructor; [apply sx_graphic_fields|constructor].
Qed.

Theorem c41_odd_glyph_refuted : exists d, Built d /\ (forall md, pages_take md d 1 (pages_new d (lit "A")) = Panic)
  /\ MessagePanics d (lit "A") [] /\ (exists ps, MessageAccepted d (lit "B") ps)
  /\ forall f cs, In f (d_fonts d) -> f_number f = 0 -> Spells f (lit "B") cs ->
       InkText (f_char_spacing f) (f_height f) cs 0 0 0 (f_height f).
Proof.
  assert (exists d, build Debug fx_builder0 = Val (Ok d)) as (d & E) by (eexists; vm_compute; reflexivity).
  assert (HB : Built d) by (exists Debug, fx_builder0; split; [apply fx_builder0_fields|exact E]).
  assert (ED : d = mkDms sx_sign_cfg sx_vms [sx_font; fx_odd] (b_multi_cfg fx_builder0) [sx_graphic])
    by (vm_compute in E; injection E as <-; reflexivity).
  exists d. split; [exact HB|]. rewrite ED in *. clear ED E.
  assert (HP : forall md, pages_take md (mkDms sx_sign_cfg sx_vms [sx_font; fx_odd] (b_multi_cfg fx_builder0) [sx_graphic]) 1
    (pages_new (mkDms sx_sign_cfg sx_vms [sx_font; fx_odd] (b_multi_cfg fx_builder0) [sx_graphic]) (lit "A")) = Panic)
    by (intros []; vm_compute; reflexivity).
  split; [exact HP|]. split; [exact (panic_message _ _ [] HB eq_refl (HP Debug))|]. split.
  - apply (c55_exact_debug_partial _ _ HB). 
    destruct (yields_of Debug (mkDms sx_sign_cfg sx_vms [sx_font; fx_odd] (b_multi_cfg fx_builder0) [sx_graphic]) (lit "B") 3 1 [ShPage 20 12 30])
      as (ps & HY & _); [vm_compute; reflexivity|cbn; lia|repeat constructor|reflexivity|eauto].
  - intros f cs [<-|[<-|[]]] N S; [discriminate N|]. inversion S as [|? c ? ? HC HN]; subst. inversion HN; subst.
    destruct HC as (_ & EN & pre & post & EC & _). exists [], c, []. split; [reflexivity|]. cbn.
    destruct pre as [|c0 [|c1 [|]]]; injection EC as EC; subst; try discriminate.
    unfold GlyphInks. cbn. splits; try lia. exists 1%nat, 255, 0. splits; auto; lia.
Qed.
Print Assumptions c41_odd_glyph_refuted.

(** ** Release builds *)

(** Messages that do not make a release build go on with a number that has wrapped
    around (all those that [c41_safe_partial] speaks of, and most that panic): both
    builds give pages only exactly when nothing is wrong, an error [e] after [k]
    pages exactly when that is the first fault of the build, and panic after [k]
    pages exactly when the first fault is one that crashes the build.  Release
    builds report rectangles with edges past 16 bits, on which debug builds panic.
    [c56_builds_partial] has the pages. *)
Theorem c55_cause_modes_partial : forall d ms md, Built d -> (md = Release -> ~ Wraps d ms) ->
  (forall ps, Yields md d ms (map Ok ps) -> MessageAccepted d ms ps)
  /\ (forall n ps e l, pages_take md d n (pages_new d ms) = Val (map Ok ps ++ Err e :: l) -> FailsIn md d ms ps e)
  /\ (forall ps, pages_take md d (List.length ps) (pages_new d ms) = Val (map Ok ps) ->
        pages_take md d (S (List.length ps)) (pages_new d ms) = Panic -> PanicsIn md d ms ps).
Proof. exact exact_modes. Qed.
Print Assumptions c55_cause_modes_partial.

Theorem c55_exact_partial : forall d ms md, Built d -> (md = Release -> ~ Wraps d ms) ->
  ((exists ps, Yields md d ms (map Ok ps)) <-> exists ps, MessageAccepted d ms ps)
  /\ (forall k e, (exists n ps l, List.length ps = k /\ pages_take md d n (pages_new d ms) = Val (map Ok ps ++ Err e :: l))
       <-> exists ps, List.length ps = k /\ FailsIn md d ms ps e)
  /\ forall k, (exists ps, List.length ps = k /\ pages_take md d k (pages_new d ms) = Val (map Ok ps)
                  /\ pages_take md d (S k) (pages_new d ms) = Panic)
        <-> exists ps, List.length ps = k /\ PanicsIn md d ms ps.
Proof. exact verdict_modes. Qed.
Print Assumptions c55_exact_partial.

(** C41 in release builds: the messages that panic, exactly, among those on which
    no number wraps around: a piece that panics when it is read, a tag that is not
    rendered, a default justification that cannot be placed, or glyphs that reach
    off the sign. *)
Theorem c41_exact_release_partial : forall d ms, Built d -> ~ Wraps d ms ->
  forall k, (exists ps, List.length ps = k /\ pages_take Release d k (pages_new d ms) = Val (map Ok ps)
               /\ pages_take Release d (S k) (pages_new d ms) = Panic)
    <-> exists ps, List.length ps = k /\ MessageStops d ms ps Crash.
Proof. intros d ms HB HN. exact (proj2 (proj2 (verdict_modes d ms Release HB (fun _ => HN)))). Qed.
Print Assumptions c41_exact_release_partial.

(** A crash is one in both builds, an error is one in both builds, and so is a
    message with nothing wrong; only overflows tell them apart. *)
Theorem c55_wraps : forall d ms ps f, MessageStops d ms ps f -> (Wraps d ms <-> f = Overflow None).
Proof.
  intros d ms ps f H. split.
  - intros (qs & HW). exact (proj2 (unique_stops d ms ps qs f _ H HW)).
  - intros ->. now exists ps.
Qed.
Print Assumptions c55_wraps.

Theorem c55_accepted_wraps : forall d ms ps, MessageAccepted d ms ps -> ~ Wraps d ms.
Proof. intros d ms ps HA (qs & HW). exact (excl_message d ms ps qs _ HA HW). Qed.
Print Assumptions c55_accepted_wraps.

(** A text rectangle with an edge past 16 bits panics in a debug build and is an
    error in a release build; a tag that splits a character panics in both. *)
Example c55_release_example :
  (exists e, ~ Wraps lx_d (lit "[tr9,1,65535,5]B") /\ FailsIn Release lx_d (lit "[tr9,1,65535,5]B") [] e
     /\ PanicsIn Debug lx_d (lit "[tr9,1,65535,5]B") []
     /\ pages_take Release lx_d 1 (pages_new lx_d (lit "[tr9,1,65535,5]B")) = Val [Err e])
  /\ ~ Wraps lx_d (lit "A[mvl" ++ [233] ++ lit "]") /\ PanicsIn Release lx_d (lit "A[mvl" ++ [233] ++ lit "]") []
  /\ PanicsIn Debug lx_d (lit "A[mvl" ++ [233] ++ lit "]") [].
Proof.
  assert (H1 : MessageStops lx_d (lit "[tr9,1,65535,5]B") [] (Overflow (Some (SUnsupportedTagValue (lit "[tr9,1,65535,5]"))))).
  { exists [], [Ok (VTextRectangle (mkRect 9 1 65535 5)); Ok (VText (lit "B"))], false. split.
    { apply meaning_reading. apply (values_meaning Debug). vm_compute. reflexivity. }
    split; [constructor|]. split; [constructor|]. split; [constructor|].
    apply (Rs_page _ _ _ _ [VTextRectangle (mkRect 9 1 65535 5); VText (lit "B")]).
    - split; [intros [X|[X|[]]]; discriminate X|left; reflexivity].
    - discriminate.
    - apply Forall_cons; [|apply Forall_cons; [|apply Forall_nil]]; intros t Ht; apply Proofs_Pages.value_tag_iff in Ht; [|discriminate Ht].
      injection Ht as <-. vm_compute. reflexivity.
    - intros r E. discriminate E.
    - apply Pf_rect; [intros u [<-|[<-|[]]] X; inversion X|].
      apply (Fl_here lx_d _ [] [VTextRectangle (mkRect 9 1 65535 5); VText (lit "B")]); [intros r []|right; eauto|].
      eapply Rx_tag; [constructor|intros u []|]. apply (First_at _ [] (VTextRectangle (mkRect 9 1 65535 5)) []).
      + intros a x b f E. destruct a; discriminate E.
      + apply Tg_edges. unfold measurable, edges_fit. cbn. lia. }
  assert (H2 : MessageStops lx_d (lit "A[mvl" ++ [233] ++ lit "]") [] Crash).
  { exists [], [Ok (VText (lit "A"))], true. split.
    { exists [lit "A"], [lit "[mvl" ++ [233] ++ lit "]"]. split; [|split].
      - apply (Tks_cons (lit "A") (lit "[mvl" ++ [233] ++ lit "]")).
        + apply Tk_text; [discriminate|repeat constructor; discriminate|right; eexists _, _; split; [reflexivity|left; reflexivity]].
        + apply (Tks_cons (lit "[mvl" ++ [233] ++ lit "]") []); [|constructor].
          apply (Tk_tag (lit "mvl" ++ [233])). repeat constructor; discriminate.
      - apply Forall2_cons; [|apply Forall2_nil]. apply Tn_text; [discriminate|repeat constructor; discriminate|].
        repeat constructor; discriminate.
      - eexists _, _. split; [reflexivity|]. exists (lit "mvl" ++ [233]). split; [repeat constructor; discriminate|].
        split; [reflexivity|]. exists "mv"%string, (lit "mv"), [108; 233]. split; [reflexivity|]. split.
        + repeat constructor; (left; reflexivity).
        + apply Sa_mvl; [left; reflexivity|lia]. }
    split; [constructor|]. split; [constructor|]. split; [constructor|].
    apply (Rs_cut _ _ _ _ [VText (lit "A")]); auto.
    - intros [X|[]]; discriminate X.
    - apply Forall_cons; [|apply Forall_nil]. intros t Ht. apply Proofs_Pages.value_tag_iff in Ht. discriminate Ht. }
  split; [|split; [|split; [exact H2|exists Crash; split; [intros e X; discriminate X|exact H2]]]].
  - eexists. split; [rewrite (c55_wraps _ _ _ _ H1); discriminate|]. split; [right; split; [reflexivity|exact H1]|].
    split; [eexists; split; [|exact H1]; intros e X; discriminate X|vm_compute; reflexivity].
  - rewrite (c55_wraps _ _ _ _ H2). discriminate.
Qed.

Theorem c55_no_crash_partial : forall d ms rs, Built d -> Usable d -> FontsInCells d -> PlaceableDefaults d ->
  Meaning ms rs -> Forall (Renderable d) (oks rs) -> Moderate d (oks rs) -> forall ps, ~ MessagePanics d ms ps.
Proof. exact safe_no_panic. Qed.
Print Assumptions c55_no_crash_partial.

(** Where debug builds panic, release builds can give pages of a message that has
    something wrong with it: text 65537 pixels wide on a sign 20 pixels wide. *)
Definition fx_wide : str := lit "[sc63]" ++ repeat 32 (Z.to_nat 1025).

Theorem c55_release_refuted : exists d ms ps t f cs, Built d /\ Yields Release d ms (map Ok ps)
  /\ Meaning ms [Ok (VSpacingCharacter 63); Ok (VText t)]
  /\ FirstFont (d_fonts d) (default_font (d_multi_cfg d)) f /\ Spells f t cs
  /\ sign_width_pixels (d_vms_cfg d) < line_width 63 (map c_width cs)
  /\ MessagePanics d ms [] /\ forall qs, ~ MessageAccepted d ms qs.
Proof.
  exists lx_d, fx_wide. pose proof (proj1 px_sign) as HB.
  assert (HP : MessagePanics lx_d fx_wide []).
  { apply (panic_message lx_d fx_wide [] HB); vm_compute; reflexivity. }
  destruct (yields_of Release lx_d fx_wide 3 1 [ShPage 20 12 30]) as (ps & HY & _);
    [vm_compute; reflexivity|cbn; lia|repeat constructor|reflexivity|].
  exists ps, (repeat 32 (Z.to_nat 1025)), sx_font, (repeat (mkChar 32 1 [0]) (Z.to_nat 1025)).
  split; [exact HB|]. split; [exact HY|]. split; [apply (values_meaning Debug); vm_compute; reflexivity|]. splits; auto.
  - split; [reflexivity|]. exists [], [font_default 2]. split; [reflexivity|intros ? []].
  - generalize (Z.to_nat 1025) as n. induction n as [|n IH]; cbn [repeat]; constructor; auto.
    split; [lia|]. split; [reflexivity|]. exists [mkChar 65 3 [87; 128]; mkChar 66 2 [252]], [char_default]. split; [reflexivity|].
    intros c [<-|[<-|[]]]; discriminate.
  - vm_compute. reflexivity.
  - intros qs HA. destruct HP as (f & _ & HP). exact (excl_message lx_d fx_wide qs [] f HA HP).
Qed.
Print Assumptions c55_release_refuted.

(** Text that is too high, in the usual case that each line of a block has text of
    the line above before it. *)
Theorem c55_too_high : forall d all s, Stacked all -> In s all -> (TooHigh d all s <-> TooTall d all s).
Proof. exact too_high_tall. Qed.
Print Assumptions c55_too_high.

(** The example of [c52_modes_example] is a message with nothing wrong, and that of
    [c41_example] one with a fault (the unknown tag of its second page). *)
Example c55_exact_example :
  (exists ps, MessageAccepted lx_d px_page ps) /\ (exists ps e, List.length ps = 1%nat /\ MessageFails lx_d fx_ms ps e).
Proof.
  split.
  - destruct c52_modes_example as (ps & HB & HU & HF & HP & HM & HR & HO & HY & _).
    apply (proj1 (c55_exact_partial lx_d px_page Release HB
                    (fun _ => no_panic_wraps _ _ (c55_no_crash_partial _ _ _ HB HU HF HP HM HR HO)))). eauto.
  - destruct c41_example as (rs & HB & HU & HF & HP & HM & HR & HO & _).
    assert (exists a b c e, shapes (pages_take Debug lx_d 2 (pages_new lx_d fx_ms)) = Val [ShPage a b c; ShErr e])
      as (a & b & c & e & H) by (do 4 eexists; vm_compute; reflexivity).
    apply shapes_val in H as (r & H & E). destruct r as [|[p|] [|[q|f] [|]]]; try discriminate E.
    exists [p], f. split; auto. apply (c55_cause_partial lx_d 2 fx_ms [p] f [] HB H).
Qed.
