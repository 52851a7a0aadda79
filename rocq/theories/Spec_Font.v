(** Specification of fonts and their encoding, independent of the model's own
    helper functions. *)

From Verif Require Import Base Str Raster Font.

(** ** OER decoding (ITU-T X.696) *)

(** Big-endian value of some bytes. *)
Definition be (bytes : list Z) : Z := fold_left (fun a b => 256 * a + b) bytes 0.

(** Take exactly [n] bytes. *)
Definition dec_bytes (n : nat) (l : list Z) : option (list Z * list Z) :=
  if (n <=? length l)%nat then Some (firstn n l, skipn n l) else None.

(** Length determinant: short form below 128, else the number of bytes. *)
Definition dec_length (l : list Z) : option (Z * list Z) :=
  match l with
  | [] => None
  | b :: r =>
      if b <? 128 then Some (b, r)
      else match dec_bytes (Z.to_nat (b - 128)) r with
           | Some (ds, r) => Some (be ds, r)
           | None => None
           end
  end.

Definition dec_octets (l : list Z) : option (list Z * list Z) :=
  match dec_length l with
  | Some (n, r) => dec_bytes (Z.to_nat n) r
  | None => None
  end.

(** Unbounded unsigned integer: length, then big-endian bytes. *)
Definition dec_uint (l : list Z) : option (Z * list Z) :=
  match dec_octets l with
  | Some (ds, r) => Some (be ds, r)
  | None => None
  end.

Definition dec_char (l : list Z) : option (CharacterEntry * list Z) :=
  match l with
  | n1 :: n0 :: w :: r =>
      match dec_octets r with
      | Some (bm, r) => Some (mkChar (be [n1; n0]) w bm, r)
      | None => None
      end
  | _ => None
  end.

Fixpoint dec_chars (n : nat) (l : list Z) : option (list CharacterEntry * list Z) :=
  match n with
  | O => Some ([], l)
  | S n =>
      match dec_char l with
      | Some (c, r) =>
          match dec_chars n r with
          | Some (cs, r) => Some (c :: cs, r)
          | None => None
          end
      | None => None
      end
  end.

(** A whole font: number, height, character and line spacing, characters. *)
Definition dec_font (l : list Z)
  : option (Z * Z * Z * Z * list CharacterEntry * list Z) :=
  match l with
  | num :: h :: chs :: ls :: r =>
      match dec_uint r with
      | Some (n, r) =>
          match dec_chars (Z.to_nat n) r with
          | Some (cs, r) => Some (num, h, chs, ls, cs, r)
          | None => None
          end
      | None => None
      end
  | _ => None
  end.

(** ** Fonts *)

(** Fields hold values of their Rust types; sizes fit in 32 bits, those of bitmaps
    in 30 bits. *)
Definition char_fields (c : CharacterEntry) : Prop :=
  u16 (c_number c) /\ u8 (c_width c)
  /\ Forall u8 (c_bitmap c) /\ Z.of_nat (length (c_bitmap c)) < 1073741824.

Definition font_fields (f : Font) : Prop :=
  u8 (f_number f) /\ u8 (f_height f) /\ u8 (f_char_spacing f) /\ u8 (f_line_spacing f)
  /\ Forall char_fields (f_characters f)
  /\ Z.of_nat (length (f_characters f)) < 4294967296.

(** A slot is used when its number is not 0. *)
Definition used (c : CharacterEntry) : Prop := c_number c <> 0.

(** The used slots, in order. *)
Fixpoint used_chars (cs : list CharacterEntry) : list CharacterEntry :=
  match cs with
  | [] => []
  | c :: r => match c_number c with 0 => used_chars r | _ => c :: used_chars r end
  end.

(** The bitmap has the number of bytes needed for [width * height] bits. *)
Definition bitmap_fits (h : Z) (c : CharacterEntry) : Prop :=
  let bits := 8 * Z.of_nat (length (c_bitmap c)) in
  c_width c * h <= bits < c_width c * h + 8.

Definition good_numbers (f : Font) : Prop := NoDup (map c_number (used_chars (f_characters f))).

Definition valid_font (f : Font) : Prop :=
  1 <= f_number f /\ 1 <= f_height f
  /\ (forall c, In c (f_characters f) -> used c -> bitmap_fits (f_height f) c)
  /\ good_numbers f.

(** The glyphs of a font fit its height. *)
Definition sound_font (f : Font) : Prop :=
  forall c, In c (f_characters f) -> used c -> bitmap_fits (f_height f) c.

(** [n] is the number of the first used slot that has a later duplicate. *)
Definition FirstDup (ns : list Z) (n : Z) : Prop :=
  exists pre post, ns = pre ++ n :: post /\ In n post
    /\ (forall p m q, pre = p ++ m :: q -> ~ In m (q ++ n :: post)).

(** The slot that holds character [ch]: the first with that number. *)
Definition HasChar (f : Font) (ch : Z) (c : CharacterEntry) : Prop :=
  ch < 65536 /\ c_number c = ch
  /\ exists pre post, f_characters f = pre ++ c :: post
       /\ (forall d, In d pre -> c_number d <> ch).

(** ** Text *)

(** Width of characters with the given widths: the spacing goes between
    consecutive characters, counted from the first one that has any width. *)
Fixpoint drop_zeros (ws : list Z) : list Z :=
  match ws with
  | 0 :: r => drop_zeros r
  | _ => ws
  end.

Fixpoint spread (cs : Z) (ws : list Z) : Z :=
  match ws with
  | [] => 0
  | [w] => w
  | w :: r => w + cs + spread cs r
  end.

Definition line_width (cs : Z) (ws : list Z) : Z := spread cs (drop_zeros ws).

(** Left offset of the next character after characters of the given widths. *)
Definition offset_after (cs : Z) (ws : list Z) : Z :=
  match drop_zeros ws with
  | [] => 0
  | l => spread cs l + cs
  end.

(** The bit of a glyph at a row and column: bits run left to right, top to
    bottom, from the most significant bit of the first byte. *)
Definition Lit (c : CharacterEntry) (row col : Z) : Prop :=
  0 <= col < c_width c /\ 0 <= row
  /\ exists k b, nth_error (c_bitmap c) k = Some b
       /\ exists i, 0 <= i < 8 /\ row * c_width c + col = 8 * Z.of_nat k + i
            /\ Z.testbit b (7 - i) = true.

(** Pixel [px, py] is lit by the text [cs] drawn at [x, y]. *)
Definition LitText (sp h : Z) (cs : list CharacterEntry) (x y px py : Z) : Prop :=
  exists pre c post, cs = pre ++ c :: post /\ py - y < h
    /\ Lit c (py - y) (px - x - offset_after sp (map c_width pre)).

(** The bytes that [n] bits take. *)
Definition octets (n : Z) : Z := (n + 7) / 8.

(** What a glyph of a font [h] pixels high draws, also when its bitmap is not of
    that height: the rows of the bitmap follow each other up to row [h], and each
    row from there on starts a byte.  No width counts as 1. *)
Definition GlyphInks (h : Z) (c : CharacterEntry) (row col : Z) : Prop :=
  let w := Z.max 1 (c_width c) in
  0 <= row /\ 0 <= col < w
  /\ exists k b i, nth_error (c_bitmap c) k = Some b /\ 0 <= i < 8 /\ Z.testbit b (7 - i) = true
       /\ 8 * Z.of_nat k + i
          = if row <? h then row * w + col else 8 * (octets (h * w) + (row - h) * octets w) + col.

(** Pixel [px, py] is drawn by the text [cs] at [x, y]. *)
Definition InkText (sp h : Z) (cs : list CharacterEntry) (x y px py : Z) : Prop :=
  exists pre c post, cs = pre ++ c :: post
    /\ GlyphInks h c (py - y) (px - x - offset_after sp (map c_width pre)).

(** What validation of a font should report: the first violated rule. *)
Inductive FontVerdict (f : Font) : result unit FontError -> Prop :=
| VNumber : f_number f < 1 -> FontVerdict f (Err FInvalidNumber)
| VHeight : 1 <= f_number f -> f_height f < 1 -> FontVerdict f (Err FInvalidHeight)
| VBitmap : forall c, 1 <= f_number f -> 1 <= f_height f -> In c (f_characters f) -> used c ->
    ~ bitmap_fits (f_height f) c -> FontVerdict f (Err FInvalidCharHeight)
| VDup : forall n, 1 <= f_number f -> 1 <= f_height f ->
    (forall c, In c (f_characters f) -> used c -> bitmap_fits (f_height f) c) ->
    FirstDup (map c_number (used_chars (f_characters f))) n ->
    FontVerdict f (Err (FDuplicateChar n))
| VOk : valid_font f -> FontVerdict f (Ok tt).

(** The text is spelled with these slots of the font. *)
Definition Spells (f : Font) (text : str) (cs : list CharacterEntry) : Prop :=
  Forall2 (HasChar f) text cs.

(** [ch] is the first character of the text that the font does not have; the
    ones before it are spelled [cs]. *)
Definition FirstMissing (f : Font) (text : str) (cs : list CharacterEntry) (ch : Z) : Prop :=
  exists pre post, text = pre ++ ch :: post /\ Spells f pre cs /\ forall c, ~ HasChar f ch c.

(** ** Font tables *)

Definition used_font (f : Font) : Prop := f_number f <> 0.

Fixpoint used_fonts (t : FontTable) : list Font :=
  match t with
  | [] => []
  | f :: r => match f_number f with 0 => used_fonts r | _ => f :: used_fonts r end
  end.

Definition table_fields (t : FontTable) : Prop := Forall font_fields t.

Definition valid_fonts (t : FontTable) : Prop :=
  (forall f, In f t -> used_font f -> valid_font f) /\ NoDup (map f_number (used_fonts t)).

(** [f] is the only font of the table with number [n]. *)
Definition OnlyFont (t : FontTable) (n : Z) (f : Font) : Prop :=
  f_number f = n
  /\ exists pre post, t = pre ++ f :: post
       /\ (forall g, In g (pre ++ post) -> f_number g <> n).

(** [name] is the name of the font: its text up to the first NUL. *)
Definition Named (f : Font) (name : list Z) : Prop :=
  ~ In 0 name /\ exists pad, f_name f = name ++ pad /\ (pad = [] \/ exists r, pad = 0 :: r).

(** [c] is the only slot with number [n]. *)
Definition OnlyChar (f : Font) (n : Z) (c : CharacterEntry) : Prop :=
  c_number c = n
  /\ exists pre post, f_characters f = pre ++ c :: post
       /\ (forall d, In d (pre ++ post) -> c_number d <> n).

(** The first invalid used font, or the first duplicated number. *)
Inductive TableVerdict (t : FontTable) : result unit FontError -> Prop :=
| TVFont : forall pre f post e, t = pre ++ f :: post -> used_font f ->
    (forall g, In g pre -> used_font g -> valid_font g) ->
    FontVerdict f (Err e) -> TableVerdict t (Err e)
| TVDup : forall n, (forall f, In f t -> used_font f -> valid_font f) ->
    FirstDup (map f_number (used_fonts t)) n -> TableVerdict t (Err (FDuplicateNumber n))
| TVOk : valid_fonts t -> TableVerdict t (Ok tt).

(** [q] is [p] with exactly the pixels of [S] changed to [cf]. *)
Definition Painted {P} (p q : Raster P) (S : Z -> Z -> Prop) (cf : P) : Prop :=
  r_width q = r_width p /\ r_height q = r_height p
  /\ forall x y, (S x y -> r_pixel q x y = cf) /\ (~ S x y -> r_pixel q x y = r_pixel p x y).

(** Position on the raster. *)
Definition on_raster {P} (p : Raster P) (x y : Z) : Prop :=
  0 <= x < r_width p /\ 0 <= y < r_height p.
