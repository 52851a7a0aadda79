(** Model of src/dms/config.rs. *)

From Verif Require Import Base Str Multi Color.

(** config.rs 11-19: [CfgError]. *)
Inductive CfgError := InvalidPageCfg | InvalidDimensions.

(** config.rs 97-120: [SignCfg].  Enumerations and flag sets that no code reads
    are kept as their numeric value. *)
Record SignCfg := mkSignCfg {
  sign_access : Z; sign_type : Z;
  sign_height : Z; sign_width : Z;
  horizontal_border : Z; vertical_border : Z;
  legend : Z; beacon_type : Z; sign_technology : Z }.

(** config.rs 122-141: [VmsCfg]; [monochrome_color] is [r,g,b] foreground then
    background. *)
Record VmsCfg := mkVmsCfg {
  char_height_pixels : Z; char_width_pixels : Z;
  sign_height_pixels : Z; sign_width_pixels : Z;
  horizontal_pitch : Z; vertical_pitch : Z;
  mono_fg : rgb; mono_bg : rgb }.

(** config.rs 143-178: [MultiCfg]. *)
Record MultiCfg := mkMultiCfg {
  default_background_rgb : Color; default_foreground_rgb : Color;
  default_flash_on : Z; default_flash_off : Z;
  default_font : Z;
  default_justification_line : JustificationLine;
  default_justification_page : JustificationPage;
  default_page_on_time : Z; default_page_off_time : Z;
  default_character_set : Z;
  cfg_color_scheme : ColorScheme;
  supported_multi_tags : Z;
  max_number_pages : Z; max_multi_string_length : Z }.

(** config.rs 180-194: [SignCfg::default]. *)
Definition sign_cfg_default : SignCfg := mkSignCfg 0 4 1650 2920 60 60 2 2 2.

(** config.rs 221-233: [VmsCfg::default]. *)
Definition vms_cfg_default : VmsCfg := mkVmsCfg 7 5 21 40 70 70 (255, 112, 224) (0, 0, 0).

(** A tag set. *)
Definition tag_set (l : list Tag) : Z :=
  fold_right (fun t z => Z.lor (Z.shiftl 1 (tag_bit t)) z) 0 l.

(** config.rs 235-269: [MultiCfg::default]. *)
Definition multi_cfg_default : MultiCfg :=
  mkMultiCfg (Legacy 0) (Legacy 9) 5 5 1 JlCenter JpMiddle 30 0 2 Monochrome1Bit
    (tag_set [TCb; TCf; TFo; TG; THc; TJl; TJp; TNl; TNp; TPt; TSc; TTr; TCr; TPb])
    4 65535.

(** config.rs 206-211: [SignCfg::is_width_valid] (u16 arithmetic). *)
Definition is_width_valid (md : mode) (s : SignCfg) (v : VmsCfg) : M bool :=
  let! p := chk16 md (sign_width_pixels v * horizontal_pitch v) in
  let! w := chk16 md (horizontal_border s + p) in
  Val (w <=? sign_width s).

(** config.rs 213-218: [SignCfg::is_height_valid]. *)
Definition is_height_valid (md : mode) (s : SignCfg) (v : VmsCfg) : M bool :=
  let! p := chk16 md (sign_height_pixels v * vertical_pitch v) in
  let! h := chk16 md (vertical_border s + p) in
  Val (h <=? sign_height s).

(** config.rs 196-204: [SignCfg::validate]. *)
Definition sign_cfg_validate (md : mode) (s : SignCfg) (v : VmsCfg)
  : M (result unit CfgError) :=
  let! w := is_width_valid md s v in
  if w then
    let! h := is_height_valid md s v in
    Val (if h then Ok tt else Err InvalidDimensions)
  else Val (Err InvalidDimensions).

(** config.rs 271-281: [MultiCfg::validate]. *)
Definition multi_cfg_validate (c : MultiCfg) : result unit CfgError :=
  if (max_number_pages c =? 0)
     || (1 <? max_number_pages c) && negb (contains_tag (supported_multi_tags c) TNp)
  then Err InvalidPageCfg
  else Ok tt.
