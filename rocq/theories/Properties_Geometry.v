(** Property C31: positions of pixels. *)

From Coq Require Import Reals Lra String.
From Flocq Require Import BinarySingleNaN.
From Verif Require Import Base Config Sign Geometry Spec_Color Spec_Sign Spec_Geometry Proofs_Str Proofs_Geometry Proofs_Exact
  Graphic Font Color Multi Spec_Tfon Examples_Sign.
Open Scope R_scope.

Local Notation mode := Base.mode.

(** ** The signs *)

(** Signs built in Debug mode meet [XAxis] and [YAxis] below, unless the pitch
    is 0 or there are over 43690 pixels in a row. *)
Lemma c31_axis_x : forall b d, builder_fields b -> build Debug b = Val (Ok d) ->
  (1 <= sign_width_pixels (d_vms_cfg d) <= 43690)%Z -> (1 <= horizontal_pitch (d_vms_cfg d))%Z -> XAxis d.
Proof. exact built_xaxis. Qed.
Lemma c31_axis_y : forall b d, builder_fields b -> build Debug b = Val (Ok d) ->
  (1 <= sign_height_pixels (d_vms_cfg d) <= 43690)%Z -> (1 <= vertical_pitch (d_vms_cfg d))%Z -> YAxis d.
Proof. exact built_yaxis. Qed.

(** ** Columns *)

(** The position of every column of pixels is a number between 0 and the output
    size, and it is the exact position but for a 2^18th part of the output. *)
Theorem c31_x_partial : forall md d x w, XAxis d ->
  (0 <= x < sign_width_pixels (d_vms_cfg d))%Z -> (0 <= w < 4294967296)%Z ->
  exists r, pixel_x md d x w = Val r /\ is_finite r = true /\ 0 <= B2R r <= IZR w /\
    forall pos, XPosition d x pos -> Rabs (B2R r - IZR w * pos / IZR (sign_width (d_sign_cfg d))) <= IZR w / 262144.
Proof. exact pixel_x_good. Qed.
Print Assumptions c31_x_partial.

(** It increases from column to column. *)
Theorem c31_x_order_partial : forall md d x y w, XAxis d ->
  (0 <= x < y)%Z -> (y < sign_width_pixels (d_vms_cfg d))%Z -> (1 <= w < 4294967296)%Z ->
  exists r s, pixel_x md d x w = Val r /\ pixel_x md d y w = Val s /\ Bltb r s = true.
Proof. exact pixel_x_order. Qed.
Print Assumptions c31_x_order_partial.

(** There is an exact position for every column. *)
Lemma c31_x_exact : forall d x, XAxis d -> (0 <= x < sign_width_pixels (d_vms_cfg d))%Z -> exists pos, XPosition d x pos.
Proof. intros d x (A & _) H. apply position_exists; lia. Qed.

(** ** Rows *)

Theorem c31_y_partial : forall md d y h, YAxis d ->
  (0 <= y < sign_height_pixels (d_vms_cfg d))%Z -> (0 <= h < 4294967296)%Z ->
  exists r, pixel_y md d y h = Val r /\ is_finite r = true /\ 0 <= B2R r <= IZR h /\
    forall pos, YPosition d y pos -> Rabs (B2R r - IZR h * pos / IZR (sign_height (d_sign_cfg d))) <= IZR h / 262144.
Proof. exact pixel_y_good. Qed.
Print Assumptions c31_y_partial.

Theorem c31_y_order_partial : forall md d x y h, YAxis d ->
  (0 <= x < y)%Z -> (y < sign_height_pixels (d_vms_cfg d))%Z -> (1 <= h < 4294967296)%Z ->
  exists r s, pixel_y md d x h = Val r /\ pixel_y md d y h = Val s /\ Bltb r s = true.
Proof. exact pixel_y_order. Qed.
Print Assumptions c31_y_order_partial.

Lemma c31_y_exact : forall d y, YAxis d -> (0 <= y < sign_height_pixels (d_vms_cfg d))%Z -> exists pos, YPosition d y pos.
Proof. intros d y (A & _) H. apply position_exists; lia. Qed.

(** ** Examples *)

(** A sign of 4 by 3 characters of 5 by 7 pixels, with gaps. *)
Definition gx_vms : VmsCfg := mkVmsCfg 7 5 21 20 70 70 (255, 112, 224)%Z (0, 0, 0)%Z.
Definition gx_sign : Dms :=
  mkDms sx_sign_cfg gx_vms [sx_font; font_default 2] (sx_multi Color24Bit) [sx_graphic].
Definition gx_builder : DmsBuilder :=
  mkBuilder sx_sign_cfg gx_vms [sx_font; font_default 2] (sx_multi Color24Bit) [sx_graphic].

Lemma gx_fields : builder_fields gx_builder.
Proof.
  pose proof (sx_builder_fields Color24Bit) as H. unfold builder_fields in *. cbn in *.
  destruct H as (H1 & H2 & H3 & H4 & H5). splits; auto.
  - unfold vms_fields, rgb_ok, Base.u8, Base.u16 in *. cbn in *. splits; lia.
  - constructor; [apply sx_graphic_fields|constructor].
Qed.

Example c31_axis_example : XAxis gx_sign /\ YAxis gx_sign.
Proof.
  assert (build Debug gx_builder = Val (Ok gx_sign)) as B by (vm_compute; reflexivity).
  split; [apply (built_xaxis gx_builder)|apply (built_yaxis gx_builder)]; try apply gx_fields; auto; cbn; lia.
Qed.

(** Border 60, gaps (2920 - 120 - 1400) / 3: pixel 7 is in the second character. *)
Example c31_position_example : XPosition gx_sign 7 (60 + 1400 / 3 + 7.5 * 70).
Proof.
  exists 3%Z, 1%Z, 70, 60, (1400 / 3). unfold Gaps, CharOf. cbn -[IZR].
  splits; try lia; try lra.
  - rewrite Rmin_left; lra.
  - rewrite Rmin_left; lra.
Qed.

(** In an output of 1000 it is at about 360.16. *)
Example c31_value_example : exists r, pixel_x Debug gx_sign 7 1000 = Val r /\ 360 < B2R r < 361.
Proof.
  destruct (pixel_x_good Debug gx_sign 7 1000) as (r & E & _ & _ & C); [apply c31_axis_example|cbn; lia..|].
  exists r. split; auto. specialize (C _ c31_position_example). cbn -[IZR] in C.
  apply Rabs_def2b in C || apply Raux.Rabs_le_inv in C. lra.
Qed.

(** ** Refutations *)

(** Signs without a pitch can be built.  All their columns are in one place *)
Definition gx_flat_vms : VmsCfg := mkVmsCfg 0 0 12 20 0 0 (255, 112, 224)%Z (0, 0, 0)%Z.
Definition gx_flat : DmsBuilder :=
  mkBuilder sx_sign_cfg gx_flat_vms [sx_font; font_default 2] (sx_multi Color24Bit) [sx_graphic].
Lemma gx_flat_fields : builder_fields gx_flat.
Proof.
  pose proof (sx_builder_fields Color24Bit) as H. unfold builder_fields in *. cbn in *.
  destruct H as (H1 & H2 & H3 & H4 & H5). splits; auto.
  - unfold vms_fields, rgb_ok, Base.u8, Base.u16 in *. cbn in *. splits; lia.
  - constructor; [apply sx_graphic_fields|constructor].
Qed.

Definition gx_flat_sign : Dms :=
  mkDms sx_sign_cfg gx_flat_vms [sx_font; font_default 2] (sx_multi Color24Bit) [sx_graphic].
Theorem c31_pitch_refuted : exists b d r s, builder_fields b /\ build Debug b = Val (Ok d) /\
  (2 <= sign_width_pixels (d_vms_cfg d))%Z /\
  pixel_x Debug d 0 1000 = Val r /\ pixel_x Debug d 1 1000 = Val s /\ Bltb r s = false.
Proof.
  exists gx_flat, gx_flat_sign. eexists. eexists. splits; [apply gx_flat_fields|vm_compute; reflexivity|cbn; lia|..].
  - apply pixel_x_axis. cbn. lia.
  - apply pixel_x_axis. cbn. lia.
  - vm_compute. reflexivity.
Qed.
Print Assumptions c31_pitch_refuted.

(** and without a face as well it is not a number. *)
Definition gx_point : DmsBuilder :=
  mkBuilder (mkSignCfg 0 4 0 0 0 0 2 2 2) gx_flat_vms [sx_font; font_default 2] (sx_multi Color24Bit) [sx_graphic].
Lemma gx_point_fields : builder_fields gx_point.
Proof.
  pose proof gx_flat_fields as H. unfold builder_fields in *. cbn in *. destruct H as (H1 & H2 & H3 & H4 & H5).
  splits; auto. unfold sign_fields, Base.u16. cbn. splits; lia.
Qed.

Definition gx_point_sign : Dms :=
  mkDms (mkSignCfg 0 4 0 0 0 0 2 2 2) gx_flat_vms [sx_font; font_default 2] (sx_multi Color24Bit) [sx_graphic].
Theorem c31_face_refuted : exists b d r, builder_fields b /\ build Debug b = Val (Ok d) /\
  (1 <= sign_width_pixels (d_vms_cfg d))%Z /\ pixel_x Debug d 0 1000 = Val r /\ is_nan r = true.
Proof.
  exists gx_point, gx_point_sign. eexists. splits; [apply gx_point_fields|vm_compute; reflexivity|cbn; lia|..].
  - apply pixel_x_axis. cbn. lia.
  - vm_compute. reflexivity.
Qed.
Print Assumptions c31_face_refuted.

(** A row of 60000 pixels, in characters of 2, overflows the count of pixels
    and gaps. *)
Definition gx_long : DmsBuilder :=
  mkBuilder (mkSignCfg 0 4 1650 65000 60 60 2 2 2) (mkVmsCfg 0 2 12 60000 1 70 (255, 112, 224)%Z (0, 0, 0)%Z)
    [sx_font; font_default 2] (sx_multi Color24Bit) [sx_graphic].
Lemma gx_long_fields : builder_fields gx_long.
Proof.
  pose proof (sx_builder_fields Color24Bit) as H. unfold builder_fields in *. cbn in *.
  destruct H as (H1 & H2 & H3 & H4 & H5). splits; auto.
  - unfold vms_fields, rgb_ok, Base.u8, Base.u16 in *. cbn in *. splits; lia.
  - constructor; [apply sx_graphic_fields|constructor].
Qed.

Theorem c31_overflow_refuted : exists b d, builder_fields b /\ build Debug b = Val (Ok d) /\
  (1 <= sign_width_pixels (d_vms_cfg d))%Z /\ pixel_x Debug d 0 1000 = Panic.
Proof.
  exists gx_long. eexists. splits; [apply gx_long_fields|vm_compute; reflexivity|cbn; lia|vm_compute; reflexivity].
Qed.
Print Assumptions c31_overflow_refuted.
