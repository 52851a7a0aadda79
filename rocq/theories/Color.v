(** Model of the colour and rectangle parts of src/dms/multi.rs. *)

From Coq Require Import String.
From Verif Require Import Base Str Multi.

(** RGB triplet. *)
Definition rgb := (Z * Z * Z)%type.

(** multi.rs 90-103: [ColorClassic]. *)
Inductive ColorClassic :=
| Black | Red | Yellow | Green | Cyan | Blue | Magenta | White | Orange | Amber.

(** multi.rs 105-117: [ColorScheme]. *)
Inductive ColorScheme :=
| Monochrome1Bit | Monochrome8Bit | ColorClassicScheme | Color24Bit.

(** multi.rs 107-116: discriminants. *)
Definition scheme_num (s : ColorScheme) : Z :=
  match s with
  | Monochrome1Bit => 1 | Monochrome8Bit => 2 | ColorClassicScheme => 3 | Color24Bit => 4
  end.

(** multi.rs 128-141: [ColorCtx]. *)
Record ColorCtx := mkCtx {
  color_scheme : ColorScheme;
  fg_default : rgb; fg_current : Color;
  bg_default : rgb; bg_current : Color }.

(** multi.rs 388-402: [ColorClassic::rgb]. *)
Definition classic_rgb (c : ColorClassic) : rgb :=
  match c with
  | Black => (0, 0, 0)
  | Red => (255, 0, 0)
  | Yellow => (255, 255, 0)
  | Green => (0, 255, 0)
  | Cyan => (0, 255, 255)
  | Blue => (0, 0, 255)
  | Magenta => (255, 0, 255)
  | White => (255, 255, 255)
  | Orange => (255, 165, 0)
  | Amber => (255, 208, 0)
  end.

(** multi.rs 404-421: [ColorClassic::from_u8]. *)
Definition classic_from_u8 (v : Z) : option ColorClassic :=
  if v =? 0 then Some Black else if v =? 1 then Some Red
  else if v =? 2 then Some Yellow else if v =? 3 then Some Green
  else if v =? 4 then Some Cyan else if v =? 5 then Some Blue
  else if v =? 6 then Some Magenta else if v =? 7 then Some White
  else if v =? 8 then Some Orange else if v =? 9 then Some Amber
  else None.

(** multi.rs 424-428: [u8::from(ColorClassic)]. *)
Definition classic_to_u8 (c : ColorClassic) : Z :=
  match c with
  | Black => 0 | Red => 1 | Yellow => 2 | Green => 3 | Cyan => 4 | Blue => 5
  | Magenta => 6 | White => 7 | Orange => 8 | Amber => 9
  end.

(** multi.rs 430-444: [ColorScheme::from(&str)]. *)
Definition scheme_from_str (s : str) : ColorScheme :=
  if str_eqb s (lit "monochrome1Bit") then Monochrome1Bit
  else if str_eqb s (lit "monochrome8Bit") then Monochrome8Bit
  else if str_eqb s (lit "colorClassic") then ColorClassicScheme
  else if str_eqb s (lit "color24Bit") then Color24Bit
  else Monochrome1Bit.

(** multi.rs 455-459: [Color::from((u8, u8, u8))]. *)
Definition color_of_rgb (c : rgb) : Color := let '(r, g, b) := c in Rgb r g b.

(** multi.rs 583-586: [ColorCtx::rgb_classic]. *)
Definition rgb_classic (v : Z) : option rgb :=
  match classic_from_u8 v with Some c => Some (classic_rgb c) | None => None end.

(** multi.rs 461-469: [Color::rgb]. *)
Definition color_rgb (c : Color) : rgb :=
  match c with
  | Legacy v => match rgb_classic v with Some x => x | None => (0, 0, 0) end
  | Rgb r g b => (r, g, b)
  end.

(** multi.rs 588-595: [ColorCtx::lerp].  The subtraction and the additions are
    u8/u32 operations; the final u8 addition is reduced modulo 256 here and
    proved never to overflow ([as u8] truncates). *)
Definition lerp (bg fg v : Z) : Z :=
  let d := Z.max bg fg - Z.min bg fg in
  let c := d * v in
  let r := (Z.shiftr ((c + 1) + Z.shiftr c 8) 8) mod 256 in
  Z.min bg fg + r.

(** multi.rs 564-571 *)
Definition rgb_monochrome_1 (ctx : ColorCtx) (v : Z) : option rgb :=
  if v =? 0 then Some (bg_default ctx)
  else if v =? 1 then Some (fg_default ctx)
  else None.

(** multi.rs 573-581 *)
Definition rgb_monochrome_8 (ctx : ColorCtx) (v : Z) : option rgb :=
  let '(b0, b1, b2) := bg_default ctx in
  let '(f0, f1, f2) := fg_default ctx in
  Some (lerp b0 f0 v, lerp b1 f1 v, lerp b2 f2 v).

(** multi.rs 547-562: [ColorCtx::rgb]. *)
Definition ctx_rgb (ctx : ColorCtx) (c : Color) : option rgb :=
  match color_scheme ctx, c with
  | Monochrome1Bit, Legacy v => rgb_monochrome_1 ctx v
  | Monochrome1Bit, _ => None
  | Monochrome8Bit, Legacy v => rgb_monochrome_8 ctx v
  | Monochrome8Bit, _ => None
  | _, Legacy v => rgb_classic v
  | Color24Bit, Rgb r g b => Some (r, g, b)
  | _, _ => None
  end.

(** multi.rs 472-487: [ColorCtx::new]. *)
Definition ctx_new (s : ColorScheme) (fg bg : rgb) : ColorCtx :=
  mkCtx s fg (color_of_rgb fg) bg (color_of_rgb bg).

(** multi.rs 489-503: [ColorCtx::set_foreground]; returns the context after
    the call as well (unchanged on error). *)
Definition set_foreground (ctx : ColorCtx) (c : option Color) (v : Value)
  : ColorCtx * result unit SyntaxError :=
  let set x := mkCtx (color_scheme ctx) (fg_default ctx) x (bg_default ctx) (bg_current ctx) in
  match c with
  | Some c =>
      match ctx_rgb ctx c with
      | Some _ => (set c, Ok tt)
      | None => (ctx, Err (SUnsupportedTagValue (display v)))
      end
  | None => (set (color_of_rgb (fg_default ctx)), Ok tt)
  end.

(** multi.rs 510-516: [ColorCtx::foreground_rgb]. *)
Definition foreground_rgb (ctx : ColorCtx) : rgb :=
  match ctx_rgb ctx (fg_current ctx) with Some x => x | None => fg_default ctx end.

(** multi.rs 518-532: [ColorCtx::set_background]. *)
Definition set_background (ctx : ColorCtx) (c : option Color) (v : Value)
  : ColorCtx * result unit SyntaxError :=
  let set x := mkCtx (color_scheme ctx) (fg_default ctx) (fg_current ctx) (bg_default ctx) x in
  match c with
  | Some c =>
      match ctx_rgb ctx c with
      | Some _ => (set c, Ok tt)
      | None => (ctx, Err (SUnsupportedTagValue (display v)))
      end
  | None => (set (color_of_rgb (bg_default ctx)), Ok tt)
  end.

(** multi.rs 539-545: [ColorCtx::background_rgb]. *)
Definition background_rgb (ctx : ColorCtx) : rgb :=
  match ctx_rgb ctx (bg_current ctx) with Some x => x | None => bg_default ctx end.

(** multi.rs 604-608: [Rectangle::default]. *)
Definition rect_default : Rectangle := mkRect 1 1 0 0.

(** Derived [PartialEq] on [Rectangle]. *)
Definition rect_eqb (a b : Rectangle) : bool :=
  (rx a =? rx b) && (ry a =? ry b) && (rwidth a =? rwidth b) && (rheight a =? rheight b).

(** multi.rs 621-634: [Rectangle::extend_width_height]. *)
Definition extend_width_height (r full : Rectangle) : Rectangle :=
  let width := if 0 <? rwidth r then rwidth r
               else sat_sub (rwidth full) (sat_sub (rx r) 1) in
  let height := if 0 <? rheight r then rheight r
                else sat_sub (rheight full) (sat_sub (ry r) 1) in
  mkRect (rx r) (ry r) width height.

(** multi.rs 636-649: [Rectangle::intersection]. *)
Definition intersection (md : mode) (a b : Rectangle) : M Rectangle :=
  let left := Z.max (rx a) (rx b) in
  let! ar := chk16 md (rx a + rwidth a) in
  let! br := chk16 md (rx b + rwidth b) in
  let right := Z.min ar br in
  let top := Z.max (ry a) (ry b) in
  let! ab := chk16 md (ry a + rheight a) in
  let! bb := chk16 md (ry b + rheight b) in
  let bottom := Z.min ab bb in
  if (left <? right) && (top <? bottom) then
    let! w := chk16 md (right - left) in
    let! h := chk16 md (bottom - top) in
    Val (mkRect left top w h)
  else Val rect_default.

(** multi.rs 651-658: [Rectangle::contains] ([&&] is short-circuit). *)
Definition rect_contains (md : mode) (a b : Rectangle) : M bool :=
  if negb (rx a <=? rx b) then Val false else
  let! br := chk16 md (rx b + rwidth b) in
  let! ar := chk16 md (rx a + rwidth a) in
  if negb (br <=? ar) then Val false else
  if negb (ry a <=? ry b) then Val false else
  let! bb := chk16 md (ry b + rheight b) in
  let! ab := chk16 md (ry a + rheight a) in
  Val (bb <=? ab).
