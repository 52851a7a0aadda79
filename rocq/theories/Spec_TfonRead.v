(** Specification of what reading .tfon properties yields. *)

From Verif Require Import Base Str Font Tfon.

(** Properties in groups: those up to and including each bitmap belong to one
    character; [tail] comes after the last bitmap. *)
Definition NoBitmap (g : list Property) : Prop := forall b, ~ In (PBitmap b) g.
Definition HasCode (g : list Property) : Prop := exists cp, In (PCodePoint cp) g.

Definition Grouped (ps : list Property) (gs : list (list Property * Bitmap))
    (tail : list Property) : Prop :=
  ps = concat (map (fun p => fst p ++ [PBitmap (snd p)]) gs) ++ tail
  /\ (forall g b, In (g, b) gs -> NoBitmap g) /\ NoBitmap tail.

(** The last of the properties of one kind, if there is one. *)
Inductive LastOf {A} (sel : Property -> option A) (ps : list Property) : option A -> Prop :=
| last_some : forall pre p post a, ps = pre ++ p :: post -> sel p = Some a ->
    (forall q, In q post -> sel q = None) -> LastOf sel ps (Some a)
| last_none : (forall q, In q ps -> sel q = None) -> LastOf sel ps None.

Definition name_of p := match p with PFontName n => Some n | _ => None end.
Definition number_of p := match p with PFontNumber n => Some n | _ => None end.
Definition char_spacing_of p := match p with PCharSpacing n => Some n | _ => None end.
Definition line_spacing_of p := match p with PLineSpacing n => Some n | _ => None end.
Definition code_of p := match p with PCodePoint n => Some n | _ => None end.

(** The value of the last property of a kind, or 0. *)
Definition LastOr0 (sel : Property -> option Z) (ps : list Property) (v : Z) : Prop :=
  LastOf sel ps (Some v) \/ LastOf sel ps None /\ v = 0.

(** A name in a field of 64 bytes: as many characters as fit, then NULs. *)
Definition Name64 (nm s : str) : Prop :=
  exists t r k, nm = t ++ r /\ s = t ++ repeat 0 k /\ len t + Z.of_nat k = 64
    /\ match r with [] => True | c :: _ => 64 < len t + utf8_len c end.

(** The height that some bitmaps share: [0] when none has pixels, else some
    bitmaps without rows may come before those of height [h]. *)
Definition Share (bs : list Bitmap) (h : Z) : Prop :=
  exists j k, map bm_height bs = repeat 0 j ++ repeat h k /\ (h = 0 <-> k = 0%nat).

(** There is a slot for each of these characters, and for a last code point. *)
Definition Room (C : nat) (gs : list (list Property * Bitmap)) (tail : list Property) : Prop :=
  (length gs <= C)%nat /\ (HasCode tail -> (length gs < C)%nat).

(** Slot [n] of the font: the [n]-th bitmap with the last code point before it;
    after the last bitmap, the code point that has no bitmap. *)
Definition Slot (gs : list (list Property * Bitmap)) (tail : list Property) (n : nat)
    (c : CharacterEntry) : Prop :=
  match nth_error gs n with
  | Some (g, b) =>
      LastOr0 code_of g (c_number c) /\ c_width c = bm_width b /\ c_bitmap c = bm_bits b
  | None =>
      (n = length gs -> LastOr0 code_of tail (c_number c))
      /\ (n <> length gs -> c_number c = 0) /\ c_width c = 0 /\ c_bitmap c = []
  end.

(** What reading the properties [ps] into a font of [C] slots gives. *)
Inductive TfonReads (C : nat) (ps : list Property) : M (result Font FontError) -> Prop :=
| tr_ok : forall gs tail f, Grouped ps gs tail -> Room C gs tail ->
    Share (map snd gs) (f_height f) ->
    LastOr0 number_of ps (f_number f) ->
    LastOr0 char_spacing_of ps (f_char_spacing f) ->
    LastOr0 line_spacing_of ps (f_line_spacing f) ->
    (LastOf name_of ps None /\ f_name f = name_default
     \/ exists nm, LastOf name_of ps (Some nm) /\ Name64 nm (f_name f)) ->
    length (f_characters f) = C ->
    (forall n c, nth_error (f_characters f) n = Some c -> Slot gs tail n c) ->
    TfonReads C ps (Val (Ok f))
| tr_height : forall pre g b post tail h, Grouped ps (pre ++ (g, b) :: post) tail ->
    Room C pre g -> Share (map snd pre) h -> h <> 0 -> bm_height b <> h ->
    TfonReads C ps (Val (Err FInvalidCharHeight))
| tr_panic : forall pre post tail h, Grouped ps (pre ++ post) tail ->
    length pre = C -> Share (map snd pre) h ->
    match post with
    | [] => HasCode tail
    | (g, b) :: _ => HasCode g \/ h = 0 \/ bm_height b = h
    end -> TfonReads C ps Panic.
