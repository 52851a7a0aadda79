(** Properties C70 and C71: letter case outside rendering; what patterns depend on. *)

From Coq Require Import String.
From Verif Require Import Base Str Multi Color Raster Font Graphic Config Sign Render Pattern
  Spec_Multi Spec_Font Spec_Sign Spec_Gamut Spec_Alike
  Proofs_Str Proofs_Split Proofs_Case Proofs_Sign Proofs_Fail Proofs_Alike Proofs_Recase
  Examples_Sign Properties_Layout Properties_Alike.
Open Scope list_scope.

(** ** Letter case (C70) *)

(** Messages whose tags differ only in the case of letters are blank alike, and have
    the same text. *)
Theorem c70_text : forall md ms ms', Recased ms ms' ->
  is_blank md ms = is_blank md ms' /\ text_spans md ms = text_spans md ms'
  /\ forall sep, join_text md ms sep = join_text md ms' sep.
Proof. exact recased_text. Qed.
Print Assumptions c70_text.

(** Their normal forms differ only in the case of letters of tags, and are equal when
    no tag carries free text. *)
Theorem c70_normalize : forall md ms ms', Recased ms ms' ->
  BothGive Recased (normalize md ms) (normalize md ms')
  /\ ((forall v, Says ms v -> ~ carries_text v) -> normalize md ms = normalize md ms').
Proof. intros md ms ms' H. split; [exact (recased_normalize md ms ms' H)|exact (plain_normalize md ms ms' H)]. Qed.
Print Assumptions c70_normalize.

(** Patterns whose tags differ only in the case of letters have the same widths of
    text areas. *)
Theorem c70_widths : forall md d p p', Recased p p' -> pat_widths md d p = pat_widths md d p'.
Proof. exact recased_widths. Qed.
Print Assumptions c70_widths.

(** They are filled with lines alike up to the case of letters of free text, and cut
    a message into the same lines when no tag carries free text. *)
Theorem c70_fill : forall md d p p' lines, Recased p p' ->
  BothGive CaseEq (pat_fill md d p lines) (pat_fill md d p' lines)
  /\ ((forall v, Says p v -> ~ carries_text v) -> pat_fill md d p lines = pat_fill md d p' lines).
Proof. intros md d p p' lines H. split; [exact (recased_fill md d p p' lines H)|exact (plain_fill md d p p' lines H)]. Qed.
Print Assumptions c70_fill.

Theorem c70_lines : forall md d p p' ms, Recased p p' -> (forall v, Says p v -> ~ carries_text v) ->
  pat_lines md d p ms = pat_lines md d p' ms.
Proof. exact recased_lines. Qed.
Print Assumptions c70_lines.

Definition rx_lower : str := lit "[jl3][tr1,1,20,12][fo1][np][pt9]A".
Definition rx_upper : str := lit "[JL3][Tr1,1,20,12][fO1][NP][pT9]A".

Ltac recase l l' :=
  exists l, l'; splits; [apply (split_iff Debug); vm_compute; reflexivity..|];
  repeat (apply Forall2_cons;
    [first [apply Ct_same
           | match goal with |- CaseToken ?a ?b => apply (cased (removelast (tl a)) (removelast (tl b))) end;
             [vm_compute; reflexivity|case_eq]]|]);
  constructor.

Lemma rx_recased : Recased rx_lower rx_upper.
Proof.
  recase [lit "[jl3]"; lit "[tr1,1,20,12]"; lit "[fo1]"; lit "[np]"; lit "[pt9]"; lit "A"]
    [lit "[JL3]"; lit "[Tr1,1,20,12]"; lit "[fO1]"; lit "[NP]"; lit "[pT9]"; lit "A"].
Qed.

Lemma rx_says v : Says rx_lower v -> In v [VJustificationLine (Some JlCenter); VTextRectangle (mkRect 1 1 20 12);
  VFont (Some (1, None)); VNewPage; VPageTime (Some 9) None; VText (lit "A")].
Proof.
  intros (ts & t & HT & HI & HD). apply (split_iff Debug) in HT. vm_compute in HT. injection HT as <-.
  pose proof (denotes_vals [t] [Ok v] (Forall2_cons _ _ HD (Forall2_nil _))) as E. injection E as E. clear HD.
  repeat (destruct HI as [<-|HI]; [vm_compute in E; injection E as <-; cbn; tauto|]). contradiction.
Qed.

(** A pattern of one area of three lines, filled and read back. *)
Example c70_example : Recased rx_lower rx_upper /\ (forall v, Says rx_lower v -> ~ carries_text v)
  /\ join_text Debug ax_upper (lit "/") = Val (lit "A/B/AB/A")
  /\ normalize Debug rx_upper = Val (lit "[jl3][tr1,1,20,12][fo1][np][pt9o]A")
  /\ pat_widths Debug lx_d rx_upper = Val [(20, 1, 0); (20, 1, 0); (20, 1, 0)]
  /\ pat_fill Debug lx_d rx_upper [lit "A"; lit "B"; lit "AB"] = Val (lit "[jl3][tr1,1,20,12]A[nl]B[nl]AB[fo1][np][pt9o]A")
  /\ pat_lines Debug lx_d rx_upper (lit "[jl3][tr1,1,20,12]A[nl]B[nl]AB[fo1][np][pt9o]A") = Val [lit "A"; lit "B"; lit "AB"].
Proof.
  splits; [exact rx_recased| |vm_compute; reflexivity..].
  intros v H. apply rx_says in H. cbn in H. repeat (destruct H as [<-|H]; [intros []|]). contradiction.
Qed.

(** The condition on free text is needed: a message that repeats the tag of one
    pattern does not match the other. *)
Definition rx_d : Dms :=
  mkDms sx_sign_cfg sx_vms [sx_font]
    (mkMultiCfg (Legacy 0) (Legacy 9) 5 5 1 JlLeft JpTop 30 0 2 Color24Bit (tag_set [TMs; TNl; TNp]) 4 1000) [].

Example c70_free_text : Recased (lit "[ms2,a]") (lit "[ms2,A]")
  /\ pat_lines Debug rx_d (lit "[ms2,a]") (lit "[ms2,a]A") = Val [lit "A"; []; []]
  /\ pat_lines Debug rx_d (lit "[ms2,A]") (lit "[ms2,a]A") = Val [].
Proof.
  splits; [|vm_compute; reflexivity..].
  recase [lit "[ms2,a]"] [lit "[ms2,A]"].
Qed.

(** ** What patterns depend on (C71) *)

(** Signs of the same sizes in pixels, default font and tags treat a pattern alike
    when their fonts of the numbers that it names, and the default font, have the
    same height and line spacing. *)
Theorem c71_depends : forall md d d' p, SameCells d d' -> (forall k, UsesFont d p k -> SameLines d d' k) ->
  pat_widths md d p = pat_widths md d' p /\ (forall lines, pat_fill md d p lines = pat_fill md d' p lines)
  /\ forall ms, pat_lines md d p ms = pat_lines md d' p ms.
Proof. exact same_patterns. Qed.
Print Assumptions c71_depends.

(** A sign with other glyphs, colours, page times and graphics. *)
Definition rx_other : Dms :=
  mkDms (mkSignCfg 0 4 1700 3000 70 70 2 2 2) (mkVmsCfg 0 0 12 20 75 75 (255, 112, 224) (0, 0, 0))
    [mkFont 7 (lit "none") 5 2 2 [mkChar 65 3 [87; 128; 0]];
     mkFont 1 (lit "blank") (f_height sx_font) 9 (f_line_spacing sx_font) []]
    (mkMultiCfg (Legacy 3) (Legacy 4) 7 8 1 JlRight JpBottom 90 7 1 Monochrome1Bit (supported_multi_tags (sx_multi Color24Bit)) 6 500)
    [].

Example c71_example : SameCells lx_d rx_other /\ (forall k, UsesFont lx_d rx_lower k -> SameLines lx_d rx_other k)
  /\ (exists f f', FirstFont (d_fonts lx_d) 1 f /\ FirstFont (d_fonts rx_other) 1 f' /\ f_characters f <> f_characters f')
  /\ pat_fill Debug rx_other rx_lower [lit "A"; lit "B"; lit "AB"] = Val (lit "[jl3][tr1,1,20,12]A[nl]B[nl]AB[fo1][np][pt9o]A").
Proof.
  assert (HF : FirstFont (d_fonts lx_d) 1 sx_font) by (apply FirstFont_lookup; reflexivity).
  assert (HG : FirstFont (d_fonts rx_other) 1 (mkFont 1 (lit "blank") (f_height sx_font) 9 (f_line_spacing sx_font) []))
    by (apply FirstFont_lookup; reflexivity).
  splits.
  - unfold SameCells. cbn. splits; reflexivity.
  - intros k H. assert (k = 1) as ->.
    { destruct H as [|n v H]; [reflexivity|]. apply rx_says in H. cbn in H.
      repeat (destruct H as [H|H]; [try discriminate H; injection H; auto|]). contradiction. }
    left. eexists. eexists. splits; [exact HF|exact HG|reflexivity..].
  - eexists. eexists. splits; [exact HF|exact HG|]. discriminate.
  - vm_compute. reflexivity.
Qed.

(** The heights matter: in a font of another height the area has fewer lines. *)
Example c71_heights : pat_widths Debug (mkDms sx_sign_cfg sx_vms [mkFont 1 (lit "tall") 7 1 1 []] (sx_multi Color24Bit) []) rx_lower
  <> pat_widths Debug lx_d rx_lower.
Proof. vm_compute. discriminate. Qed.
