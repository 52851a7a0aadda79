(** Release builds of signs (C29). *)

From Coq Require Import Lia ZifyBool.
From Verif Require Import Base Str Multi Color Raster Font Graphic Config Sign
  Spec_Color Spec_Font Spec_Tfon Spec_Graphic Spec_Sign Spec_Face Proofs_Str Proofs_Font Proofs_Table Proofs_Graphic Proofs_Build.
Open Scope list_scope.

Lemma verdict_same b r : BuildVerdict b r <-> VerdictFor (fits_face (b_sign_cfg b) (b_vms_cfg b)) b r.
Proof. split; intros []; now constructor. Qed.

Lemma chk16_mod n : chk16 Release n = Val (n mod 65536).
Proof.
  unfold chk16, chk. destruct ((0 <=? n) && (n <? 65536)) eqn:E; [|reflexivity]. rewrite Z.mod_small by lia. reflexivity.
Qed.

Lemma sign_cfg_release s v :
  (sign_cfg_validate Release s v = Val (Ok tt) /\ wrapped_fits s v)
  \/ (sign_cfg_validate Release s v = Val (Err InvalidDimensions) /\ ~ wrapped_fits s v).
Proof.
  unfold sign_cfg_validate, is_width_valid, is_height_valid, wrapped_fits, face_width, face_height.
  repeat (rewrite chk16_mod; cbn [bind]). rewrite Zplus_mod_idemp_r.
  destruct (_ <=? sign_width s) eqn:W; cbn [bind]; [|right; split; [reflexivity|lia]].
  repeat (rewrite chk16_mod; cbn [bind]). rewrite Zplus_mod_idemp_r.
  destruct (_ <=? sign_height s) eqn:H; [left|right]; split; auto; lia.
Qed.

Lemma build_release b : builder_fields b ->
  let face := wrapped_fits (b_sign_cfg b) (b_vms_cfg b) in
  (exists r, build Release b = Val r /\ VerdictFor face b r)
  \/ (build Release b = Panic /\ face /\ pages_ok (b_multi_cfg b) /\ font_table_validate (b_fonts b) = Panic).
Proof.
  intros Hb face. assert (Hb' := Hb). destruct Hb as (_ & _ & (_ & _ & _ & _ & _ & Hp) & Ht & Hg). unfold build.
  destruct (sign_cfg_release (b_sign_cfg b) (b_vms_cfg b)) as [[-> F]|[-> F]]; cbn [bind lift_err try].
  2:{ left. eexists. split; [reflexivity|]. now apply VfFace. }
  destruct (pages_ok_spec (b_multi_cfg b)) as [[-> P]|[-> P]]; [exact Hp| |].
  2:{ left. eexists. split; [reflexivity|]. now apply VfPages. }
  cbn [lift_err try].
  destruct (table_validate_cases (b_fonts b) Ht) as [(r & -> & V)|(-> & _)]; [|right; auto].
  cbn [bind]. destruct r as [[]|e]; cbn [lift_err try].
  2:{ left. eexists. split; [reflexivity|]. now apply VfFont. }
  assert (VF : valid_fonts (b_fonts b)) by (inversion V; auto).
  pose proof (graphics_verdict (bw b) (bh b) (b_graphics b) Hg) as GV. unfold bw, bh in GV.
  left. destruct (graphic_table_validate _ _ _) as [[]|e]; cbn [lift_err try].
  - eexists. split; [reflexivity|]. apply VfOk; auto.
    + unfold bw, bh. inversion GV; auto.
    + unfold BuiltFrom. cbn [d_sign_cfg d_vms_cfg d_fonts d_multi_cfg d_graphics]. splits; auto.
      now apply retain_slots.
  - eexists. split; [reflexivity|]. apply VfGraphic; auto.
Qed.

Lemma build_release_verdict b r : builder_fields b -> build Release b = Val r ->
  VerdictFor (wrapped_fits (b_sign_cfg b) (b_vms_cfg b)) b r.
Proof. intros Hb E. destruct (build_release b Hb) as [(s & E' & V)|(E' & _)]; [|congruence]. congruence. Qed.

Lemma build_release_panic b : builder_fields b ->
  (build Release b = Panic <->
   wrapped_fits (b_sign_cfg b) (b_vms_cfg b) /\ pages_ok (b_multi_cfg b) /\ font_table_validate (b_fonts b) = Panic).
Proof.
  intros Hb. split.
  - intros E. destruct (build_release b Hb) as [(s & E' & V)|(_ & X)]; [congruence|auto].
  - intros (F & P & X). destruct Hb as (_ & _ & (_ & _ & _ & _ & _ & Hp) & _). unfold build.
    destruct (sign_cfg_release (b_sign_cfg b) (b_vms_cfg b)) as [[-> _]|[_ N]]; [|contradiction].
    destruct (pages_ok_spec (b_multi_cfg b) Hp) as [[-> _]|[_ N]]; [|contradiction].
    cbn [bind lift_err try]. now rewrite X.
Qed.
