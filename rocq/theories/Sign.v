(** Model of src/dms/sign.rs (integer parts; the f32 geometry is in Geometry.v). *)

From Verif Require Import Base Str Multi Color Font Graphic Config.

(** sign.rs 10-21: [SignError]. *)
Inductive SignError :=
| ECfg (e : CfgError)
| EFont (e : FontError)
| EGraphic (e : GraphicError).

(** sign.rs 23-31: [DmsBuilder]. *)
Record DmsBuilder := mkBuilder {
  b_sign_cfg : SignCfg; b_vms_cfg : VmsCfg; b_fonts : FontTable;
  b_multi_cfg : MultiCfg; b_graphics : GraphicTable }.

(** sign.rs 33-48: [Dms]. *)
Record Dms := mkDms {
  d_sign_cfg : SignCfg; d_vms_cfg : VmsCfg; d_fonts : FontTable;
  d_multi_cfg : MultiCfg; d_graphics : GraphicTable }.

(** sign.rs 24, 104-107: [Dms::builder]. *)
Definition builder_default (C F G : nat) : DmsBuilder :=
  mkBuilder sign_cfg_default vms_cfg_default (font_table_default C F)
    multi_cfg_default (graphic_table_default G).

(** sign.rs 51-82: the [with_*] setters. *)
Definition with_sign_cfg (b : DmsBuilder) (c : SignCfg) : DmsBuilder :=
  mkBuilder c (b_vms_cfg b) (b_fonts b) (b_multi_cfg b) (b_graphics b).
Definition with_vms_cfg (b : DmsBuilder) (c : VmsCfg) : DmsBuilder :=
  mkBuilder (b_sign_cfg b) c (b_fonts b) (b_multi_cfg b) (b_graphics b).
Definition with_font_definition (b : DmsBuilder) (t : FontTable) : DmsBuilder :=
  mkBuilder (b_sign_cfg b) (b_vms_cfg b) t (b_multi_cfg b) (b_graphics b).
Definition with_multi_cfg (b : DmsBuilder) (c : MultiCfg) : DmsBuilder :=
  mkBuilder (b_sign_cfg b) (b_vms_cfg b) (b_fonts b) c (b_graphics b).
Definition with_graphic_definition (b : DmsBuilder) (t : GraphicTable) : DmsBuilder :=
  mkBuilder (b_sign_cfg b) (b_vms_cfg b) (b_fonts b) (b_multi_cfg b) t.

(** [?] with error conversion ([#[from]], sign.rs 13-20). *)
Definition lift_err {A E} (f : E -> SignError) (r : result A E) : result A SignError :=
  match r with Ok a => Ok a | Err e => Err (f e) end.

(** sign.rs 84-100: [DmsBuilder::build]. *)
Definition build (md : mode) (b : DmsBuilder) : M (result Dms SignError) :=
  let! r := sign_cfg_validate md (b_sign_cfg b) (b_vms_cfg b) in
  let? _ := Val (lift_err ECfg r) in
  let? _ := Val (lift_err ECfg (multi_cfg_validate (b_multi_cfg b))) in
  let! r := font_table_validate (b_fonts b) in
  let? _ := Val (lift_err EFont r) in
  let width := sign_width_pixels (b_vms_cfg b) in
  let height := sign_height_pixels (b_vms_cfg b) in
  let gt := graphic_retain (b_graphics b) width height in
  let? _ := Val (lift_err EGraphic (graphic_table_validate gt width height)) in
  Val (Ok (mkDms (b_sign_cfg b) (b_vms_cfg b) (b_fonts b) (b_multi_cfg b) gt)).

(** sign.rs 109-118: [Dms::into_builder]. *)
Definition into_builder (d : Dms) : DmsBuilder :=
  mkBuilder (d_sign_cfg d) (d_vms_cfg d) (d_fonts d) (d_multi_cfg d) (d_graphics d).

(** sign.rs 135-138: [Dms::pixel_width]. *)
Definition pixel_width (d : Dms) : Z := sign_width_pixels (d_vms_cfg d).

(** sign.rs 230-233: [Dms::pixel_height]. *)
Definition pixel_height (d : Dms) : Z := sign_height_pixels (d_vms_cfg d).

(** sign.rs 320-323: [Dms::char_width]. *)
Definition char_width (d : Dms) : Z := char_width_pixels (d_vms_cfg d).

(** sign.rs 325-328: [Dms::char_height]. *)
Definition char_height (d : Dms) : Z := char_height_pixels (d_vms_cfg d).

(** sign.rs 335-346: [Dms::foreground_default_rgb]. *)
Definition foreground_default_rgb (d : Dms) : rgb :=
  match cfg_color_scheme (d_multi_cfg d) with
  | ColorClassicScheme | Color24Bit => color_rgb (default_foreground_rgb (d_multi_cfg d))
  | _ => mono_fg (d_vms_cfg d)
  end.

(** sign.rs 348-359: [Dms::background_default_rgb]. *)
Definition background_default_rgb (d : Dms) : rgb :=
  match cfg_color_scheme (d_multi_cfg d) with
  | ColorClassicScheme | Color24Bit => color_rgb (default_background_rgb (d_multi_cfg d))
  | _ => mono_bg (d_vms_cfg d)
  end.

(** sign.rs 361-367: [Dms::color_ctx]. *)
Definition dms_color_ctx (d : Dms) : ColorCtx :=
  ctx_new (cfg_color_scheme (d_multi_cfg d)) (foreground_default_rgb d)
    (background_default_rgb d).

(** sign.rs 369-372: [Dms::full_rect]. *)
Definition full_rect (d : Dms) : Rectangle := mkRect 1 1 (pixel_width d) (pixel_height d).

(** sign.rs 388-392: the loop of [rect_lines] (usize arithmetic, which cannot
    overflow here).  When [fuel] runs out the loop has run more than
    [height + 2] times: it never ends (only when both [lh] and [ls] are 0). *)
Fixpoint count_lines (fuel : nat) (lh ls height n : Z) : M Z :=
  match fuel with
  | O => Hang
  | S f => if lh * (n + 1) + ls * n <=? height
           then count_lines f lh ls height (n + 1)
           else Val n
  end.

(** sign.rs 374-395: [Dms::rect_lines]. *)
Definition rect_lines (d : Dms) (rect : Rectangle) (font_num : Z) : M Z :=
  match font_lookup (d_fonts d) font_num with
  | None => Val 0
  | Some font =>
      let fuel := S (S (S (Z.to_nat (rheight rect)))) in
      if char_height d =? 0 then
        count_lines fuel (f_height font) (f_line_spacing font) (rheight rect) 0
      else if char_height d <? f_height font then Val 0
      else count_lines fuel (char_height d) 0 (rheight rect) 0
  end.
