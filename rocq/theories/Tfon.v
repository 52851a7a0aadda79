(** Model of src/dms/font/tfon.rs, at the level of the property list that the
    external [tfon] crate parses from / writes to text. *)

From Verif Require Import Base Str Font.

(** The external crate's [Bitmap]. *)
Record Bitmap := mkBitmap { bm_height : Z; bm_width : Z; bm_bits : list Z }.

(** [tfon::Bitmap::from_bits]: [None] when the length does not match. *)
Definition bitmap_from_bits (height width : Z) (bits : list Z) : option Bitmap :=
  if Z.of_nat (length bits) =? div_ceil8 (width * height)
  then Some (mkBitmap height width bits) else None.

(** [tfon::Prop] (the last one stands for properties that [parse] ignores). *)
Inductive Property :=
| PFontName (nm : str)
| PFontNumber (n : Z)
| PCharSpacing (n : Z)
| PLineSpacing (n : Z)
| PCodePoint (cp : Z)
| PBitmap (b : Bitmap)
| PIgnored.

(** Longest prefix that fits in [n] bytes. *)
Fixpoint take_bytes (n : Z) (s : str) : str :=
  match s with
  | [] => []
  | c :: r => if utf8_len c <=? n then c :: take_bytes (n - utf8_len c) r else []
  end.

(** [FStr::<64>::from_str_lossy(nm, b'\0')]: truncate at a character boundary
    and pad with NUL to 64 bytes. *)
Definition fstr64 (nm : str) : str :=
  let t := take_bytes 64 nm in t ++ repeat 0 (Z.to_nat (64 - len t)).

(** [font.characters[row] = f(..)]: out of range panics. *)
Fixpoint update_char (cs : list CharacterEntry) (row : nat)
    (g : CharacterEntry -> CharacterEntry) : M (list CharacterEntry) :=
  match cs, row with
  | [], _ => Panic
  | c :: r, O => Val (g c :: r)
  | c :: r, S n => let! r' := update_char r n g in Val (c :: r')
  end.

(** tfon.rs 38-59: the loop of [parse]. *)
Fixpoint parse_props (ps : list Property) (f : Font) (row : nat)
  : M (result Font FontError) :=
  match ps with
  | [] => Val (Ok f)
  | p :: r =>
      match p with
      | PFontName nm =>
          parse_props r (mkFont (f_number f) (fstr64 nm) (f_height f) (f_char_spacing f)
                           (f_line_spacing f) (f_characters f)) row
      | PFontNumber n =>
          parse_props r (mkFont n (f_name f) (f_height f) (f_char_spacing f)
                           (f_line_spacing f) (f_characters f)) row
      | PCharSpacing n =>
          parse_props r (mkFont (f_number f) (f_name f) (f_height f) n
                           (f_line_spacing f) (f_characters f)) row
      | PLineSpacing n =>
          parse_props r (mkFont (f_number f) (f_name f) (f_height f) (f_char_spacing f)
                           n (f_characters f)) row
      | PCodePoint cp =>
          let! cs := update_char (f_characters f) row
                       (fun c => mkChar cp (c_width c) (c_bitmap c)) in
          parse_props r (mkFont (f_number f) (f_name f) (f_height f) (f_char_spacing f)
                           (f_line_spacing f) cs) row
      | PBitmap b =>
          if (0 <? f_height f) && negb (bm_height b =? f_height f)
          then Val (Err FInvalidCharHeight)
          else
            let h := if 0 <? f_height f then f_height f else bm_height b in
            let! cs := update_char (f_characters f) row
                         (fun c => mkChar (c_number c) (bm_width b) (bm_bits b)) in
            parse_props r (mkFont (f_number f) (f_name f) h (f_char_spacing f)
                             (f_line_spacing f) cs) (S row)
      | PIgnored => parse_props r f row
      end
  end.

(** tfon.rs 34-61: [tfon::parse::<C>]. *)
Definition tfon_parse (C : nat) (ps : list Property) : M (result Font FontError) :=
  parse_props ps (font_default C) 0.

(** tfon.rs 74-83: properties of the characters. *)
Definition char_props (height : Z) (c : CharacterEntry) : list Property :=
  if 0 <? c_number c then
    match bitmap_from_bits height (c_width c) (c_bitmap c) with
    | Some b => [PCodePoint (c_number c); PBitmap b]
    | None => []
    end
  else [].

(** tfon.rs 63-86: [tfon::write]: the property list handed to the crate. *)
Definition tfon_write (f : Font) : M (result (list Property) FontError) :=
  let? _ := font_validate f in
  Val (Ok ([PFontName (to_terminator (f_name f)); PFontNumber (f_number f);
            PCharSpacing (f_char_spacing f); PLineSpacing (f_line_spacing f)]
           ++ flat_map (char_props (f_height f)) (f_characters f))).
