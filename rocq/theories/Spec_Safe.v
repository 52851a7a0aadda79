(** When rendering does not panic (C41): conditions on the sign, on the fonts and
    on the values of the message. *)

From Coq Require Import String.
From Verif Require Import Base Str Multi Color Raster Font Graphic Config Sign Render
  Spec_Multi Spec_Color Spec_Font Spec_Graphic Spec_Sign Spec_Render Spec_Layout Spec_Page.
Open Scope list_scope.

(** The default justifications of the sign are ones the renderer places. *)
Definition PlaceableDefaults (d : Dms) : Prop :=
  let c := d_multi_cfg d in
  (default_justification_line c = JlLeft \/ default_justification_line c = JlCenter
   \/ default_justification_line c = JlRight)
  /\ (default_justification_page c = JpTop \/ default_justification_page c = JpMiddle
      \/ default_justification_page c = JpBottom).

(** The edges of a rectangle, and those of the sign, fit 16 bits. *)
Definition measurable (d : Dms) (r : Rectangle) : Prop :=
  edges_fit r /\ sign_width_pixels (d_vms_cfg d) < 65535 /\ sign_height_pixels (d_vms_cfg d) < 65535.

(** Tags that are rendered: no fields, flashing, moving or manufacturer text, and
    rectangles whose edges fit 16 bits. *)
Definition Renderable (d : Dms) (v : Value) : Prop :=
  match v with
  | VField _ _ | VFlash _ _ _ | VFlashEnd | VMovingText _ _ _ _ _ _
  | VManufacturerSpecific _ _ | VManufacturerSpecificEnd _ _ => False
  | VTextRectangle r | VColorRectangle r _ => measurable d r
  | _ => True
  end.

(** A stretch of a message between new pages and text rectangles. *)
Definition Stretch (b vs : list Value) : Prop :=
  (exists a c, vs = a ++ b ++ c)
  /\ ~ In VNewPage b /\ forall r, ~ In (VTextRectangle r) b.

(** Number of texts, of characters and of line breaks. *)
Fixpoint sum_of (f : Value -> Z) (vs : list Value) : Z :=
  match vs with [] => 0 | v :: r => f v + sum_of f r end.
Definition pieces : list Value -> Z :=
  sum_of (fun v => match v with VText _ | VHexadecimalCharacter _ => 1 | _ => 0 end).
Definition characters : list Value -> Z :=
  sum_of (fun v => match v with
                   | VText t => Z.of_nat (List.length t)
                   | VHexadecimalCharacter _ => 1
                   | _ => 0
                   end).
Definition breaks : list Value -> Z :=
  sum_of (fun v => match v with VNewLine _ => 1 | _ => 0 end).

(** Characters are at most [w] wide and [h] high, with at most [cs] between
    characters and [ls] between lines, whether the font or a tag asks for it. *)
Definition FontsWithin (d : Dms) (w cs h ls : Z) : Prop :=
  99 <= cs /\ 9 <= ls
  /\ forall f, In f (d_fonts d) ->
       (forall c, In c (f_characters f) -> c_width c <= w)
       /\ f_char_spacing f <= cs /\ f_height f <= h /\ f_line_spacing f <= ls.

(** The texts of every stretch, set on one line, and its lines, stacked, measure
    less than 2^16 pixels, and their numbers fit 8 bits. *)
Definition Moderate (d : Dms) (vs : list Value) : Prop :=
  exists w cs h ls, 0 <= w /\ 0 <= h /\ FontsWithin d w cs h ls
  /\ forall b, Stretch b vs ->
       pieces b < 256 /\ breaks b < 256
       /\ (characters b + breaks b) * (w + cs) < 65536
       /\ (breaks b + 1) * (h + ls) < 65536.
