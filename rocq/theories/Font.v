(** Model of src/dms/font/mod.rs. *)

From Verif Require Import Base Str Multi Color Oer Crc Raster.

(** font/mod.rs 18-38: [FontError]. *)
Inductive FontError :=
| FInvalidNumber
| FDuplicateNumber (n : Z)
| FInvalidChar (c : Z)
| FDuplicateChar (c : Z)
| FInvalidHeight
| FInvalidCharHeight.

(** font/mod.rs 43-54: [CharacterEntry]. *)
Record CharacterEntry := mkChar { c_number : Z; c_width : Z; c_bitmap : list Z }.

(** font/mod.rs 56-71: [Font<C>]; the array has [C] entries. *)
Record Font := mkFont {
  f_number : Z; f_name : str; f_height : Z;
  f_char_spacing : Z; f_line_spacing : Z;
  f_characters : list CharacterEntry }.

(** font/mod.rs 73-80: [FontTable<C, F>]: an array of [F] fonts. *)
Definition FontTable := list Font.

(** font/mod.rs 46 (derived [Default]). *)
Definition char_default : CharacterEntry := mkChar 0 0 [].

(** [FStr::<64>::default()] (fstr crate: filled with spaces; not relied on). *)
Definition name_default : str := repeat 32 64.

(** font/mod.rs 142-156: [Font::default]. *)
Definition font_default (C : nat) : Font :=
  mkFont 0 name_default 0 0 0 (repeat char_default C).

(** font/mod.rs 280-286: [FontTable::default]. *)
Definition font_table_default (C F : nat) : FontTable := repeat (font_default C) F.

(** [usize::div_ceil(8)] *)
Definition div_ceil8 (n : Z) : Z := (n + 7) / 8.

(** font/mod.rs 83-89: [CharacterEntry::is_valid]. *)
Definition char_is_valid (c : CharacterEntry) (height : Z) : bool :=
  (c_number c =? 0)
  || (Z.of_nat (length (c_bitmap c)) =? div_ceil8 (c_width c * height)).

(** [usize] arithmetic (64-bit target). *)
Definition chk64 (md : mode) (v : Z) : M Z := chk md 18446744073709551616 v.

(** [bitmap[i]] for a byte vector; out of range panics. *)
Definition index (l : list Z) (i : Z) : M Z :=
  if 0 <=? i then
    match nth_error l (Z.to_nat i) with Some b => Val b | None => Panic end
  else Panic.

(** font/mod.rs 91-103: [CharacterEntry::is_pixel_lit]. *)
Definition is_pixel_lit (md : mode) (c : CharacterEntry) (row col : Z) : M bool :=
  if col <? c_width c then
    let! rw := chk64 md (row * c_width c) in
    let! pos := chk64 md (rw + col) in
    let off := pos / 8 in
    if off <? Z.of_nat (length (c_bitmap c)) then
      let bit := 7 - Z.land pos 7 in
      let! b := index (c_bitmap c) off in
      Val (negb (Z.land (Z.shiftr b bit) 1 =? 0))
    else Val false
  else Val false.

(** font/mod.rs 125-137: the inner loop over the bits [bis] of one byte;
    returns the page and the (xx, yy) cursor, where [xx] stays below 256.  The
    early return is the [break] of line 134, which leaves the loop over the bits
    only. *)
Fixpoint render_bits (md : mode) (page : Raster rgb) (x y width height : Z)
    (cf : rgb) (by_ : Z) (bis : list Z) (xx yy : Z) : M (Raster rgb * Z * Z) :=
  match bis with
  | [] => Val (page, xx, yy)
  | bi :: r =>
      let! page :=
        (if negb (Z.land (Z.shiftr by_ (7 - bi)) 1 =? 0) then
           let! px := chk_i32 md (x + xx) in
           let! py := chk_i32 md (y + yy) in
           set_pixel page px py cf
         else Val page) in
      let xx := xx + 1 in
      if width <=? xx then
        let! yy := chk_i32 md (yy + 1) in
        if height <=? yy then Val (page, 0, yy)
        else render_bits md page x y width height cf by_ r 0 yy
      else render_bits md page x y width height cf by_ r xx yy
  end.

(** font/mod.rs 124-138: the outer loop over the bitmap bytes. *)
Fixpoint render_bytes (md : mode) (page : Raster rgb) (x y width height : Z)
    (cf : rgb) (bytes : list Z) (xx yy : Z) : M (Raster rgb) :=
  match bytes with
  | [] => Val page
  | by_ :: r =>
      let! p := render_bits md page x y width height cf by_ [0;1;2;3;4;5;6;7] xx yy in
      let '(page, xx, yy) := p in
      render_bytes md page x y width height cf r xx yy
  end.

(** font/mod.rs 105-139: [CharacterEntry::render_char]. *)
Definition render_char (md : mode) (c : CharacterEntry) (page : Raster rgb)
    (x y height : Z) (cf : rgb) : M (Raster rgb) :=
  render_bytes md page x y (c_width c) height cf (c_bitmap c) 0 0.

(** font/mod.rs 159-170: [Font::validate_char_numbers]: entry [i-1] against
    entries [i..].  [char::from_u32(num).unwrap()] panics on surrogates. *)
Fixpoint validate_char_numbers (cs : list CharacterEntry) : M (result unit FontError) :=
  match cs with
  | [] => Val (Ok tt)
  | c :: r =>
      if (0 <? c_number c) && existsb (fun d => c_number d =? c_number c) r then
        if is_charb (c_number c) then Val (Err (FDuplicateChar (c_number c)))
        else Panic
      else validate_char_numbers r
  end.

(** font/mod.rs 172-184: [Font::validate]. *)
Definition font_validate (f : Font) : M (result unit FontError) :=
  if f_number f <? 1 then Val (Err FInvalidNumber)
  else if f_height f <? 1 then Val (Err FInvalidHeight)
  else if negb (forallb (fun c => char_is_valid c (f_height f)) (f_characters f))
  then Val (Err FInvalidCharHeight)
  else
    let? _ := validate_char_numbers (f_characters f) in
    Val (Ok tt).

(** font/mod.rs 195-201: bytes of one character. *)
Definition char_oer (c : CharacterEntry) : list Z :=
  if 0 <? c_number c then
    oer_u16 (c_number c) ++ oer_u8 (c_width c) ++ octet_string (c_bitmap c)
  else [].

(** font/mod.rs 188-202: the encoded FontInformation. *)
Definition font_oer (f : Font) : list Z :=
  oer_u8 (f_number f) ++ oer_u8 (f_height f) ++ oer_u8 (f_char_spacing f)
  ++ oer_u8 (f_line_spacing f)
  ++ oer_uint (Z.of_nat (length (filter (fun c => 0 <? c_number c) (f_characters f)))
               mod 4294967296)
  ++ flat_map char_oer (f_characters f).

(** font/mod.rs 186-204: [Font::version_id]. *)
Definition font_version_id (f : Font) : Z := from_be (crc16 (font_oer f)).

(** font/mod.rs 206-215: [Font::width]. *)
Definition font_width (f : Font) : Z :=
  let width := match f_characters f with c :: _ => c_width c | [] => 0 end in
  if forallb (fun c => c_width c =? width) (f_characters f) then width else 0.

(** font/mod.rs 217-225: [Font::character]. *)
Definition character (f : Font) (ch : Z) : option CharacterEntry :=
  if ch <? 65536 then find (fun c => c_number c =? ch) (f_characters f) else None.

(** font/mod.rs 234-240: the loop of [text_width]. *)
Fixpoint text_width_loop (md : mode) (f : Font) (cs : Z) (text : str) (width : Z)
  : M (result Z FontError) :=
  match text with
  | [] => Val (Ok width)
  | ch :: r =>
      match character f ch with
      | None => Val (Err (FInvalidChar ch))
      | Some c =>
          let! width := (if 0 <? width then chk16 md (width + cs) else Val width) in
          let! width := chk16 md (width + c_width c) in
          text_width_loop md f cs r width
      end
  end.

(** font/mod.rs 227-242: [Font::text_width]. *)
Definition text_width (md : mode) (f : Font) (text : str) (cs : option Z)
  : M (result Z FontError) :=
  let cs := match cs with Some c => c | None => f_char_spacing f end in
  text_width_loop md f cs text 0.

(** font/mod.rs 268-275: the loop of [render_text]. *)
Fixpoint render_text_loop (md : mode) (f : Font) (page : Raster rgb) (text : str)
    (x y cs : Z) (cf : rgb) (xx : Z) : M (result (Raster rgb) FontError) :=
  match text with
  | [] => Val (Ok page)
  | ch :: r =>
      match character f ch with
      | None => Val (Err (FInvalidChar ch))
      | Some c =>
          let! xx := (if 0 <? xx then chk_i32 md (xx + cs) else Val xx) in
          let! px := chk_i32 md (x + xx) in
          let! page := render_char md c page px y (f_height f) cf in
          let! xx := chk_i32 md (xx + c_width c) in
          render_text_loop md f page r x y cs cf xx
      end
  end.

(** font/mod.rs 244-277: [Font::render_text] (the page is dropped on error). *)
Definition font_render_text (md : mode) (f : Font) (page : Raster rgb) (text : str)
    (x y cs : Z) (cf : rgb) : M (result (Raster rgb) FontError) :=
  render_text_loop md f page text x y cs cf 0.

(** font/mod.rs 291-295: validation loop over defined fonts. *)
Fixpoint validate_fonts (t : FontTable) : M (result unit FontError) :=
  match t with
  | [] => Val (Ok tt)
  | f :: r =>
      if 0 <? f_number f then
        let? _ := font_validate f in validate_fonts r
      else validate_fonts r
  end.

(** font/mod.rs 299-308: [FontTable::validate_font_numbers]. *)
Fixpoint validate_font_numbers (t : FontTable) : result unit FontError :=
  match t with
  | [] => Ok tt
  | f :: r =>
      if (0 <? f_number f) && existsb (fun g => f_number g =? f_number f) r
      then Err (FDuplicateNumber (f_number f))
      else validate_font_numbers r
  end.

(** font/mod.rs 289-297: [FontTable::validate]. *)
Definition font_table_validate (t : FontTable) : M (result unit FontError) :=
  let? _ := validate_fonts t in Val (validate_font_numbers t).

(** font/mod.rs 310-313: [FontTable::font]. *)
Definition font_lookup (t : FontTable) (fnum : Z) : option Font :=
  find (fun f => f_number f =? fnum) t.

(** font/mod.rs 315-318: [*table.font_mut(fnum)? = f']; [None] when there is
    no such font. *)
Fixpoint font_mut_set (t : FontTable) (fnum : Z) (f' : Font) : option FontTable :=
  match t with
  | [] => None
  | f :: r =>
      if f_number f =? fnum then Some (f' :: r)
      else match font_mut_set r fnum f' with
           | Some r' => Some (f :: r')
           | None => None
           end
  end.

(** [FStr::slice_to_terminator('\0')] (fstr crate). *)
Fixpoint to_terminator (s : str) : str :=
  match s with
  | [] => []
  | c :: r => if c =? 0 then [] else c :: to_terminator r
  end.

(** font/mod.rs 320-325: [FontTable::font_by_name]. *)
Definition font_by_name (t : FontTable) (name : str) : option Font :=
  find (fun f => str_eqb (to_terminator (f_name f)) name) t.
