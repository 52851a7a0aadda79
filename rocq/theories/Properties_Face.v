(** C29 in release builds. *)

From Verif Require Import Base Str Multi Color Raster Font Graphic Config Sign
  Spec_Color Spec_Font Spec_Tfon Spec_Graphic Spec_Sign Spec_Face Examples_Sign
  Proofs_Str Proofs_Build Proofs_Face.
Open Scope list_scope.

(** Release builds return the first violated rule, or the sign, where the rule
    for the face is about the size of the face in 16 bits.  They return this
    for every builder but those of the next theorem. *)
Theorem c29_release_partial : forall b, builder_fields b ->
  let face := wrapped_fits (b_sign_cfg b) (b_vms_cfg b) in
  (exists r, build Release b = Val r /\ VerdictFor face b r)
  \/ (build Release b = Panic /\ face /\ pages_ok (b_multi_cfg b) /\ font_table_validate (b_fonts b) = Panic).
Proof. exact build_release. Qed.
Print Assumptions c29_release_partial.

Theorem c29_release_panic_partial : forall b, builder_fields b ->
  (build Release b = Panic <->
   wrapped_fits (b_sign_cfg b) (b_vms_cfg b) /\ pages_ok (b_multi_cfg b) /\ font_table_validate (b_fonts b) = Panic).
Proof. exact build_release_panic. Qed.
Print Assumptions c29_release_panic_partial.

(** With the rule as it is meant, these are the verdicts of the other theorems
    of C29. *)
Theorem c29_same_verdict : forall b r,
  BuildVerdict b r <-> VerdictFor (fits_face (b_sign_cfg b) (b_vms_cfg b)) b r.
Proof. exact verdict_same. Qed.
Print Assumptions c29_same_verdict.

(** A sign of 1000 pixels at 70 mm needs 70060 mm.  This is 4524 in 16 bits, so
    it is accepted on 4524 mm and refused on 4523 mm. *)
Definition wide_builder (w : Z) : DmsBuilder :=
  mkBuilder (mkSignCfg 0 4 1650 w 60 60 2 2 2) (mkVmsCfg 0 0 12 1000 70 70 (255, 112, 224) (0, 0, 0))
    [sx_font] (sx_multi Color24Bit) [].

Example c29_wide : builder_fields (wide_builder 4524) /\ builder_fields (wide_builder 4523)
  /\ wrapped_fits (b_sign_cfg (wide_builder 4524)) (b_vms_cfg (wide_builder 4524))
  /\ ~ wrapped_fits (b_sign_cfg (wide_builder 4523)) (b_vms_cfg (wide_builder 4523))
  /\ match build Release (wide_builder 4524) with Val (Ok d) => d_fonts d = [sx_font] | _ => False end
  /\ build Release (wide_builder 4523) = Val (Err (ECfg InvalidDimensions)).
Proof.
  assert (F : forall w, 0 <= w < 65536 -> builder_fields (wide_builder w)).
  { intros w Hw. unfold builder_fields, sign_fields, vms_fields, multi_fields, rgb_ok, color_bytes, u8, u16. cbn.
    splits; try lia; [|constructor]. constructor; [|constructor].
    pose proof sx_fonts_fields as F. now inversion F. }
  splits; try (apply F; lia); try (vm_compute; reflexivity).
  - unfold wrapped_fits, face_width, face_height. cbn. lia.
  - unfold wrapped_fits, face_width, face_height. cbn. lia.
Qed.
