(** Specification for tfon properties and graphic encodings. *)

From Verif Require Import Base Str Multi Color Font Tfon Graphic.

(** The characters of the properties fit in [C] slots: a code point needs a
    free slot, a bitmap uses one up. *)
Fixpoint FitsSlots (C : nat) (ps : list Property) : Prop :=
  match ps with
  | [] => True
  | PCodePoint _ :: r => (1 <= C)%nat /\ FitsSlots C r
  | PBitmap _ :: r => (1 <= C)%nat /\ FitsSlots (C - 1) r
  | _ :: r => FitsSlots C r
  end.

(** Fields hold values of their Rust types. *)
Definition color_bytes (c : Color) : Prop :=
  match c with Legacy n => u8 n | Rgb r g b => u8 r /\ u8 g /\ u8 b end.

Definition graphic_fields (g : Graphic) : Prop :=
  u8 (g_number g) /\ u16 (g_height g) /\ u16 (g_width g)
  /\ match g_transparent g with Some c => color_bytes c | None => True end
  /\ Forall u8 (g_bitmap g).

(** A graphic in GraphicInfoList order: number, height, width, type, whether
    there is a transparent colour, that colour in three bytes, bitmap. *)
Definition GraphicLayout (g : Graphic) (l : list Z) : Prop :=
  exists h1 h0 w1 w0 t f c1 c2 c3,
    l = [g_number g; h1; h0; w1; w0; t; f; c1; c2; c3] ++ g_bitmap g
    /\ g_height g = 256 * h1 + h0 /\ g_width g = 256 * w1 + w0 /\ u8 h0 /\ u8 w0
    /\ t = match g_type g with
           | Monochrome1Bit => 1 | Monochrome8Bit => 2 | ColorClassicScheme => 3 | Color24Bit => 4
           end
    /\ match g_transparent g with
       | None => f = 0 /\ c1 = 0 /\ c2 = 0 /\ c3 = 0
       | Some (Legacy n) => f = 1 /\ c1 = n /\ c2 = 0 /\ c3 = 0
       | Some (Rgb r g b) => f = 1 /\ c1 = r /\ c2 = g /\ c3 = b
       end.

(** The transparent colour, if any, is of the kind the colour scheme uses. *)
Definition color_kind_ok (g : Graphic) : Prop :=
  match g_transparent g with
  | None => True
  | Some (Legacy _) => match g_type g with Color24Bit => False | _ => True end
  | Some (Rgb _ _ _) => match g_type g with Color24Bit => True | _ => False end
  end.
