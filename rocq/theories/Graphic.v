(** Model of src/dms/graphic.rs. *)

From Verif Require Import Base Str Multi Color Oer Crc Raster Font.

(** graphic.rs 20-43: [GraphicError]. *)
Inductive GraphicError :=
| GInvalidNumber | GDuplicateNumber | GInvalidHeight | GInvalidWidth
| GInvalidBitmap | GInvalidTransparentColor | GTooBig.

(** graphic.rs 45-62: [Graphic]. *)
Record Graphic := mkGraphic {
  g_number : Z; g_name : str; g_height : Z; g_width : Z;
  g_type : ColorScheme; g_transparent : option Color; g_bitmap : list Z }.

(** graphic.rs 64-69: [GraphicTable<G>]: an array of [G] graphics. *)
Definition GraphicTable := list Graphic.

(** graphic.rs 46 (derived [Default]; [ColorScheme] defaults to 1-bit). *)
Definition graphic_default : Graphic :=
  mkGraphic 0 name_default 0 0 Monochrome1Bit None [].

(** graphic.rs 273-279: [GraphicTable::default]. *)
Definition graphic_table_default (G : nat) : GraphicTable := repeat graphic_default G.

(** graphic.rs 72-81: [Graphic::is_bitmap_valid]. *)
Definition is_bitmap_valid (g : Graphic) : bool :=
  let pix := g_height g * g_width g in
  let n := match g_type g with
           | Monochrome1Bit => div_ceil8 pix
           | Color24Bit => pix * 3
           | _ => pix
           end in
  n =? Z.of_nat (length (g_bitmap g)).

(** graphic.rs 83-93: [Graphic::is_transparent_color_valid]. *)
Definition is_transparent_color_valid (g : Graphic) : bool :=
  match g_type g, g_transparent g with
  | _, None => true
  | Monochrome1Bit, Some (Legacy _) => true
  | Monochrome8Bit, Some (Legacy _) => true
  | ColorClassicScheme, Some (Legacy _) => true
  | Color24Bit, Some (Rgb _ _ _) => true
  | _, _ => false
  end.

(** graphic.rs 95-114: [Graphic::validate]. *)
Definition graphic_validate (g : Graphic) (width height : Z) : result unit GraphicError :=
  if g_number g <? 1 then Err GInvalidNumber
  else if (g_height g <? 1) || (height <? g_height g) then Err GInvalidHeight
  else if (g_width g <? 1) || (width <? g_width g) then Err GInvalidWidth
  else if negb (is_bitmap_valid g) then Err GInvalidBitmap
  else if negb (is_transparent_color_valid g) then Err GInvalidTransparentColor
  else Ok tt.

(** graphic.rs 118-146: the encoded GraphicInfoList. *)
Definition graphic_oer (g : Graphic) : list Z :=
  oer_u8 (g_number g) ++ oer_u16 (g_height g) ++ oer_u16 (g_width g)
  ++ oer_u8 (scheme_num (g_type g))
  ++ oer_u8 (match g_transparent g with Some _ => 1 | None => 0 end)
  ++ (match g_transparent g with
      | Some (Rgb r g b) => oer_u8 r ++ oer_u8 g ++ oer_u8 b
      | Some (Legacy c) => oer_u8 c ++ oer_u8 0 ++ oer_u8 0
      | None => oer_u8 0 ++ oer_u8 0 ++ oer_u8 0
      end)
  ++ octet_str (g_bitmap g).

(** graphic.rs 116-148: [Graphic::version_id]. *)
Definition graphic_version_id (g : Graphic) : Z := from_be (crc16 (graphic_oer g)).

(** graphic.rs 217-235: [Graphic::pixel_1].  (i32 arithmetic cannot overflow:
    the offset is below 256 * 65536.) *)
Definition pixel_1 (g : Graphic) (x y : Z) (ctx : ColorCtx) : M (option rgb) :=
  let offset := y * g_width g + x in
  let by_ := offset / 8 in
  let bi := 7 - Z.land offset 7 in
  let! b := index (g_bitmap g) by_ in
  let lit := negb (Z.land (Z.shiftr b bi) 1 =? 0) in
  Val (match lit, g_transparent g with
       | false, Some (Legacy 0) => None
       | true, Some (Legacy 1) => None
       | false, _ => ctx_rgb ctx (bg_current ctx)
       | true, _ => ctx_rgb ctx (fg_current ctx)
       end).

(** graphic.rs 237-253: [Graphic::pixel_8]. *)
Definition pixel_8 (g : Graphic) (x y : Z) (ctx : ColorCtx) : M (option rgb) :=
  let offset := y * g_width g + x in
  let! v := index (g_bitmap g) offset in
  Val (match g_transparent g with
       | Some (Legacy c) => if v =? c then None else ctx_rgb ctx (Legacy v)
       | _ => ctx_rgb ctx (Legacy v)
       end).

(** graphic.rs 255-270: [Graphic::pixel_24]. *)
Definition pixel_24 (g : Graphic) (x y : Z) : M (option rgb) :=
  let offset := 3 * (y * g_width g + x) in
  let! blue := index (g_bitmap g) offset in
  let! green := index (g_bitmap g) (offset + 1) in
  let! red := index (g_bitmap g) (offset + 2) in
  Val (match g_transparent g with
       | Some (Rgb r g b) =>
           if (red =? r) && (green =? g) && (blue =? b) then None
           else Some (red, green, blue)
       | _ => Some (red, green, blue)
       end).

(** graphic.rs 206-215: [Graphic::pixel_fn]. *)
Definition pixel_fn (g : Graphic) (x y : Z) (ctx : ColorCtx) : M (option rgb) :=
  match g_type g with
  | Monochrome1Bit => pixel_1 g x y ctx
  | Monochrome8Bit | ColorClassicScheme => pixel_8 g x y ctx
  | Color24Bit => pixel_24 g x y
  end.

(** Loop body shared by [to_raster] and [render_graphic]: draw one pixel if
    [pixel_fn] gives a colour ([conv] is the pixel format conversion). *)
Definition draw_pixel {P} (g : Graphic) (ctx : ColorCtx) (conv : rgb -> P)
    (ox oy : Z) (page : Raster P) (xx yy : Z) : M (Raster P) :=
  let! o := pixel_fn g xx yy ctx in
  match o with
  | Some clr => set_pixel page (ox + xx) (oy + yy) (conv clr)
  | None => Val page
  end.

(** graphic.rs 168-172, 197-201: inner loop over the columns [xs]. *)
Fixpoint draw_row {P} (g : Graphic) (ctx : ColorCtx) (conv : rgb -> P)
    (ox oy : Z) (page : Raster P) (yy : Z) (xs : list Z) : M (Raster P) :=
  match xs with
  | [] => Val page
  | xx :: r =>
      let! page := draw_pixel g ctx conv ox oy page xx yy in
      draw_row g ctx conv ox oy page yy r
  end.

(** graphic.rs 167-173, 196-202: outer loop over the rows [ys]. *)
Fixpoint draw_rows {P} (g : Graphic) (ctx : ColorCtx) (conv : rgb -> P)
    (ox oy : Z) (page : Raster P) (ys : list Z) : M (Raster P) :=
  match ys with
  | [] => Val page
  | yy :: r =>
      let! page := draw_row g ctx conv ox oy page yy (zrange (g_width g)) in
      draw_rows g ctx conv ox oy page r
  end.

(** [SRgba8]: colour and alpha. *)
Definition rgba := (rgb * Z)%type.

(** graphic.rs 150-175: [Graphic::to_raster].  [Raster::with_clear] is
    transparent black; [convert] gives full alpha. *)
Definition to_raster (g : Graphic) : M (Raster rgba) :=
  let fg := match g_type g with
            | Monochrome1Bit | Monochrome8Bit => classic_rgb White
            | _ => classic_rgb Amber
            end in
  let ctx := ctx_new Color24Bit fg (classic_rgb Black) in
  draw_rows g ctx (fun c => (c, 255)) 0 0
    (with_color (g_width g) (g_height g) ((0, 0, 0), 0)) (zrange (g_height g)).

(** graphic.rs 177-204: [Graphic::render_graphic].  (i32 sums cannot overflow:
    positions and sizes are 16-bit.) *)
Definition render_graphic (md : mode) (g : Graphic) (page : Raster rgb) (x y : Z)
    (ctx : ColorCtx) : M (result (Raster rgb) GraphicError) :=
  let! _ := (match md with
             | Debug => if (0 <? x) && (0 <? y) then Val tt else Panic
             | Release => Val tt
             end) in
  let x := x - 1 in
  let y := y - 1 in
  if (r_width page <? x + g_width g) || (r_height page <? y + g_height g)
  then Val (Err GTooBig)
  else
    let! page := draw_rows g ctx (fun c => c) x y page (zrange (g_height g)) in
    Val (Ok page).

(** graphic.rs 282-289: [GraphicTable::retain]. *)
Definition graphic_retain (t : GraphicTable) (width height : Z) : GraphicTable :=
  map (fun g => if (width <? g_width g) || (height <? g_height g)
                then graphic_default else g) t.

(** graphic.rs 297-301: validation loop over defined graphics. *)
Fixpoint validate_graphics (t : GraphicTable) (width height : Z)
  : result unit GraphicError :=
  match t with
  | [] => Ok tt
  | g :: r =>
      if 0 <? g_number g then
        match graphic_validate g width height with
        | Ok _ => validate_graphics r width height
        | Err e => Err e
        end
      else validate_graphics r width height
  end.

(** graphic.rs 305-314: [GraphicTable::validate_graphic_numbers]. *)
Fixpoint validate_graphic_numbers (t : GraphicTable) : result unit GraphicError :=
  match t with
  | [] => Ok tt
  | g :: r =>
      if (0 <? g_number g) && existsb (fun h => g_number h =? g_number g) r
      then Err GDuplicateNumber
      else validate_graphic_numbers r
  end.

(** graphic.rs 291-303: [GraphicTable::validate]. *)
Definition graphic_table_validate (t : GraphicTable) (width height : Z)
  : result unit GraphicError :=
  match validate_graphics t width height with
  | Ok _ => validate_graphic_numbers t
  | Err e => Err e
  end.

(** graphic.rs 316-319: [GraphicTable::graphic]. *)
Definition graphic_lookup (t : GraphicTable) (gnum : Z) : option Graphic :=
  find (fun g => g_number g =? gnum) t.

(** graphic.rs 321-324: [*table.graphic_mut(gnum)? = g']. *)
Fixpoint graphic_mut_set (t : GraphicTable) (gnum : Z) (g' : Graphic)
  : option GraphicTable :=
  match t with
  | [] => None
  | g :: r =>
      if g_number g =? gnum then Some (g' :: r)
      else match graphic_mut_set r gnum g' with
           | Some r' => Some (g :: r')
           | None => None
           end
  end.
