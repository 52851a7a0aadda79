(** Model of the pixel geometry of [src/dms/sign.rs] (lines 130-318).

    Rust's [f32] is the IEEE 754 binary32 format as formalised by Flocq
    ([binary_float 24 128]), rounding to nearest, ties to even; the payload of
    NaNs is not modelled.  The sums [pixel_width() + gap_char_count()] and
    [pixel_height() + gap_line_count()] are on [u16]. *)

From Flocq Require Import BinarySingleNaN.
From Verif Require Import Base Config Sign.

Definition f32 := binary_float 24 128.

Definition f32_prec : FLX.Prec_gt_0 24 := eq_refl.
Definition f32_emax : Prec_lt_emax 24 128 := eq_refl.

(** Operators [+], [-], [*] and [/], and conversion of integers. *)
Definition fadd : f32 -> f32 -> f32 := Bplus (prec_gt_0_ := f32_prec) (prec_lt_emax_ := f32_emax) mode_NE.
Definition fsub : f32 -> f32 -> f32 := Bminus (prec_gt_0_ := f32_prec) (prec_lt_emax_ := f32_emax) mode_NE.
Definition fmul : f32 -> f32 -> f32 := Bmult (prec_gt_0_ := f32_prec) (prec_lt_emax_ := f32_emax) mode_NE.
Definition fdiv : f32 -> f32 -> f32 := Bdiv (prec_gt_0_ := f32_prec) (prec_lt_emax_ := f32_emax) mode_NE.
Definition f_of (n : Z) : f32 := binary_normalize 24 128 f32_prec f32_emax mode_NE n 0 false.

(** [0.5] *)
Definition f_half : f32 := binary_normalize 24 128 f32_prec f32_emax mode_NE 1 (-1) false.

(** [f32::max] and [f32::min]: a NaN is ignored. *)
Definition fmax (a b : f32) : f32 :=
  if is_nan a then b else if is_nan b then a else if Bltb a b then b else a.
Definition fmin (a b : f32) : f32 :=
  if is_nan a then b else if is_nan b then a else if Bltb b a then b else a.

(** sign.rs 130-133: [face_width_mm]. *)
Definition face_width_mm (d : Dms) : f32 := f_of (sign_width (d_sign_cfg d)).

(** sign.rs 179-187: [gap_char_count]. *)
Definition gap_char_count (d : Dms) : Z :=
  let cw := char_width d in
  if (1 <? cw) && (cw <? pixel_width d) then (pixel_width d - 1) / cw else 0.

(** sign.rs 161-164: [pitch_horiz]. *)
Definition pitch_horiz (d : Dms) : Z := horizontal_pitch (d_vms_cfg d).

(** sign.rs 166-177: [pitch_horiz_mm]. *)
Definition pitch_horiz_mm (md : mode) (d : Dms) : M f32 :=
  let pitch := f_of (pitch_horiz d) in
  let! pix := chk16 md (pixel_width d + gap_char_count d) in
  Val (if 0 <? pix then fmin pitch (fdiv (face_width_mm d) (f_of pix)) else pitch).

(** sign.rs 140-154: [border_horiz_mm]. *)
Definition border_horiz_mm (md : mode) (d : Dms) : M f32 :=
  let! pix := chk16 md (pixel_width d + gap_char_count d) in
  let! pitch := pitch_horiz_mm md d in
  let min_width := fmul (f_of pix) pitch in
  let extra := fmax (fsub (face_width_mm d) min_width) (f_of 0) in
  Val (if 0 <? gap_char_count d
       then fmin (f_of (horizontal_border (d_sign_cfg d))) (fdiv extra (f_of 2))
       else fdiv extra (f_of 2)).

(** sign.rs 156-159: [pixel_width_mm]. *)
Definition pixel_width_mm (md : mode) (d : Dms) : M f32 :=
  let! border := border_horiz_mm md d in
  Val (fsub (face_width_mm d) (fmul border (f_of 2))).

(** sign.rs 219-223: [excess_char_mm]. *)
Definition excess_char_mm (md : mode) (d : Dms) : M f32 :=
  let! pitch := pitch_horiz_mm md d in
  let pix_mm := fmul pitch (f_of (pixel_width d)) in
  let! w := pixel_width_mm md d in
  Val (fmax (fsub w pix_mm) (f_of 0)).

(** sign.rs 209-217: [gap_char_mm]. *)
Definition gap_char_mm (md : mode) (d : Dms) : M f32 :=
  let gaps := gap_char_count d in
  if 0 <? gaps then
    let! e := excess_char_mm md d in Val (fdiv e (f_of gaps))
  else Val (f_of 0).

(** sign.rs 198-207: [char_offset_mm]. *)
Definition char_offset_mm (md : mode) (d : Dms) (x : Z) : M f32 :=
  let cw := char_width d in
  if 1 <? cw then
    let! g := gap_char_mm md d in Val (fmul (f_of (x / cw)) g)
  else Val (f_of 0).

(** sign.rs 189-196: [pixel_x]. *)
Definition pixel_x (md : mode) (d : Dms) (x width : Z) : M f32 :=
  let! border := border_horiz_mm md d in
  let! offset := char_offset_mm md d x in
  let x := fadd (f_of x) f_half in
  let! pitch := pitch_horiz_mm md d in
  let pos := fadd (fadd border offset) (fmul x pitch) in
  Val (fdiv (fmul (f_of width) pos) (face_width_mm d)).

(** sign.rs 225-228: [face_height_mm]. *)
Definition face_height_mm (d : Dms) : f32 := f_of (sign_height (d_sign_cfg d)).

(** sign.rs 274-282: [gap_line_count]. *)
Definition gap_line_count (d : Dms) : Z :=
  let ch := char_height d in
  if (1 <? ch) && (ch <? pixel_height d) then (pixel_height d - 1) / ch else 0.

(** sign.rs 256-259: [pitch_vert]. *)
Definition pitch_vert (d : Dms) : Z := vertical_pitch (d_vms_cfg d).

(** sign.rs 261-272: [pitch_vert_mm]. *)
Definition pitch_vert_mm (md : mode) (d : Dms) : M f32 :=
  let pitch := f_of (pitch_vert d) in
  let! pix := chk16 md (pixel_height d + gap_line_count d) in
  Val (if 0 <? pix then fmin pitch (fdiv (face_height_mm d) (f_of pix)) else pitch).

(** sign.rs 235-249: [border_vert_mm]. *)
Definition border_vert_mm (md : mode) (d : Dms) : M f32 :=
  let! pix := chk16 md (pixel_height d + gap_line_count d) in
  let! pitch := pitch_vert_mm md d in
  let min_height := fmul (f_of pix) pitch in
  let extra := fmax (fsub (face_height_mm d) min_height) (f_of 0) in
  Val (if 0 <? gap_line_count d
       then fmin (f_of (vertical_border (d_sign_cfg d))) (fdiv extra (f_of 2))
       else fdiv extra (f_of 2)).

(** sign.rs 251-254: [pixel_height_mm]. *)
Definition pixel_height_mm (md : mode) (d : Dms) : M f32 :=
  let! border := border_vert_mm md d in
  Val (fsub (face_height_mm d) (fmul border (f_of 2))).

(** sign.rs 314-318: [excess_line_mm]. *)
Definition excess_line_mm (md : mode) (d : Dms) : M f32 :=
  let! pitch := pitch_vert_mm md d in
  let pix_mm := fmul pitch (f_of (pixel_height d)) in
  let! h := pixel_height_mm md d in
  Val (fmax (fsub h pix_mm) (f_of 0)).

(** sign.rs 304-312: [gap_line_mm]. *)
Definition gap_line_mm (md : mode) (d : Dms) : M f32 :=
  let gaps := gap_line_count d in
  if 0 <? gaps then
    let! e := excess_line_mm md d in Val (fdiv e (f_of gaps))
  else Val (f_of 0).

(** sign.rs 293-302: [line_offset_mm]. *)
Definition line_offset_mm (md : mode) (d : Dms) (y : Z) : M f32 :=
  let ch := char_height d in
  if 1 <? ch then
    let! g := gap_line_mm md d in Val (fmul (f_of (y / ch)) g)
  else Val (f_of 0).

(** sign.rs 284-291: [pixel_y]. *)
Definition pixel_y (md : mode) (d : Dms) (y height : Z) : M f32 :=
  let! border := border_vert_mm md d in
  let! offset := line_offset_mm md d y in
  let y := fadd (f_of y) f_half in
  let! pitch := pitch_vert_mm md d in
  let pos := fadd (fadd border offset) (fmul y pitch) in
  Val (fdiv (fmul (f_of height) pos) (face_height_mm d)).
