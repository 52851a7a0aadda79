(** Properties C16 and C21 beyond 16 bits, in release builds. *)

From Coq Require Import String.
From Verif Require Import Base Str Multi Color Raster Font Spec_Color Spec_Font Spec_Wide
  Proofs_Str Proofs_Color Proofs_Font Proofs_Wide Properties_Font.
Open Scope list_scope.

(** ** C16 *)

(** Whatever the edges, an intersection that is computed is within both
    rectangles; a release build always computes one. *)
Theorem c16_sound : forall md a b r, u16_rect a -> u16_rect b -> intersection md a b = Val r ->
  forall x y, InRect r x y -> InRect a x y /\ InRect b x y.
Proof. exact intersection_sound. Qed.
Print Assumptions c16_sound.

Theorem c16_release : forall a b, exists r, intersection Release a b = Val r.
Proof. exact intersection_release. Qed.
Print Assumptions c16_release.

Example c16_sound_example : exists r, intersection Release (mkRect 5 1 65533 9) (mkRect 1 2 30000 65535) = Val r
  /\ ~ edges_fit (mkRect 5 1 65533 9) /\ r = mkRect 1 1 0 0
  /\ intersection Release (mkRect 5 1 40000 65535) (mkRect 1 1 65534 65534) = Val (mkRect 1 1 0 0)
  /\ intersection Release (mkRect 65000 1 600 9) (mkRect 5 2 65000 9) = Val (mkRect 1 1 0 0).
Proof. exists (mkRect 1 1 0 0). unfold edges_fit. cbn. splits; try reflexivity. lia. Qed.

(** A release build can take a rectangle for contained that is not. *)
Theorem c16_contains_release_refuted : exists a b, u16_rect a /\ u16_rect b
  /\ rect_contains Release a b = Val true /\ InRect b 20 5 /\ ~ InRect a 20 5.
Proof.
  exists (mkRect 1 1 10 10), (mkRect 5 5 65535 1). unfold u16_rect, u16, InRect. cbn -[Z.lt Z.le].
  splits; try lia. reflexivity.
Qed.
Print Assumptions c16_contains_release_refuted.

(** ** C21 *)

(** A release build gives the width modulo 2^16, unless a character starts where
    the width so far is a multiple of it; there measuring starts anew, without the
    spacing before that character. *)
Theorem c21_release_partial : forall f text o cs, Forall char_fields (f_characters f) -> 0 <= spacing_of f o ->
  Spells f text cs -> NoRestart (spacing_of f o) (map c_width cs) ->
  text_width Release f text o = Val (Ok (line_width (spacing_of f o) (map c_width cs) mod 65536)).
Proof. exact width_release. Qed.
Print Assumptions c21_release_partial.

Theorem c21_restart_partial : forall f pre post o cs, Forall char_fields (f_characters f) -> 0 <= spacing_of f o ->
  Spells f pre cs -> NoRestart (spacing_of f o) (map c_width cs) ->
  line_width (spacing_of f o) (map c_width cs) mod 65536 = 0 ->
  text_width Release f (pre ++ post) o = text_width Release f post o.
Proof. exact width_restart. Qed.
Print Assumptions c21_restart_partial.

(** A missing character is always reported. *)
Theorem c21_missing_release : forall f text o cs ch, FirstMissing f text cs ch ->
  text_width Release f text o = Val (Err (FInvalidChar ch)).
Proof. exact width_missing_release. Qed.
Print Assumptions c21_missing_release.

(** A text 65792 pixels wide that is measured as 255 pixels: 255 wide letters, then
    letters that take the width to 65536. *)
Definition wd_a : CharacterEntry := mkChar 65 255 (repeat 0 32).
Definition wd_b : CharacterEntry := mkChar 66 254 (repeat 0 32).
Definition wd_c : CharacterEntry := mkChar 67 1 [0].
Definition wd_font : Font := mkFont 1 [] 1 1 0 [wd_a; wd_b; wd_c].
Definition wd_pre : str := repeat 65 255 ++ [66; 67].
Definition wd_cs : list CharacterEntry := repeat wd_a 255 ++ [wd_b; wd_c].

Lemma wd_spells : Spells wd_font wd_pre wd_cs.
Proof.
  apply Forall2_app.
  - generalize 255%nat. intros k. induction k; cbn [repeat]; constructor; auto. now apply character_spec.
  - repeat apply Forall2_cons; try apply Forall2_nil; apply character_spec; reflexivity.
Qed.

Lemma no_restart_check sp ws :
  forallb (fun k => let w := line_width sp (firstn k ws) in negb (w mod 65536 =? 0) || (w =? 0)) (seq 0 (List.length ws)) = true ->
  NoRestart sp ws.
Proof.
  intros H a b -> Hb E. rewrite forallb_forall in H. specialize (H (List.length a)).
  rewrite firstn_app, Nat.sub_diag, firstn_O, app_nil_r, firstn_all in H.
  assert (negb (line_width sp a mod 65536 =? 0) || (line_width sp a =? 0) = true) as K.
  { apply H, in_seq. rewrite app_length. destruct b; [congruence|]. cbn [List.length]. lia. }
  rewrite E in K. cbn [negb Z.eqb orb] in K. now apply Z.eqb_eq.
Qed.

Theorem c21_release_refuted : exists f text cs, font_fields f /\ valid_font f /\ Spells f text cs
  /\ line_width 1 (map c_width cs) = 65792 /\ text_width Release f text None = Val (Ok 255).
Proof.
  assert (font_fields wd_font) as HF.
  { unfold font_fields, wd_font, u8. cbn [f_number f_height f_char_spacing f_line_spacing f_characters length].
    splits; try lia. repeat constructor; cbn; try lia; unfold u8, u16; repeat constructor; lia. }
  exists wd_font, (wd_pre ++ [65]), (wd_cs ++ [wd_a]). splits; auto.
  - apply font_validate_ok; [exact HF|reflexivity].
  - apply Forall2_app; [apply wd_spells|]. apply Forall2_cons; [|constructor]. now apply character_spec.
Qed.
Print Assumptions c21_release_refuted.

(** The hypotheses of the first two theorems are met by it, cut short or not. *)
Example c21_release_example : NoRestart (spacing_of wd_font None) (map c_width wd_cs)
  /\ line_width (spacing_of wd_font None) (map c_width wd_cs) mod 65536 = 0
  /\ NoRestart 1 (map c_width (repeat wd_a 258))
  /\ line_width 1 (map c_width (repeat wd_a 258)) = 66047
  /\ text_width Release wd_font (repeat 65 258) None = Val (Ok 511).
Proof. splits; try (apply no_restart_check); vm_compute; reflexivity. Qed.
