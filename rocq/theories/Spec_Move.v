(** Moving the pictures and text rectangles of a message (C73). *)

From Verif Require Import Base Str Multi Color Raster Render.
Open Scope list_scope.

Section Move.

Variables dx dy : Z.

Definition moved_rect (r : Rectangle) : Rectangle := mkRect (rx r + dx) (ry r + dy) (rwidth r) (rheight r).

(** Values that say where something goes. *)
Definition places (v : Value) : Prop :=
  match v with VTextRectangle _ | VColorRectangle _ _ | VGraphic _ _ => True | _ => False end.

(** The same value at a place moved by [dx] and [dy].  (A rectangle of width or
    height 0 reaches to the edge of the sign, so it cannot be moved.) *)
Inductive MovedValue : Value -> Value -> Prop :=
| Mv_same v : ~ places v -> MovedValue v v
| Mv_text r : 0 < rwidth r -> 0 < rheight r -> MovedValue (VTextRectangle r) (VTextRectangle (moved_rect r))
| Mv_color r c : 0 < rwidth r -> 0 < rheight r -> MovedValue (VColorRectangle r c) (VColorRectangle (moved_rect r) c)
| Mv_graphic n x y id : MovedValue (VGraphic n (Some (x, y, id))) (VGraphic n (Some (x + dx, y + dy, id)))
| Mv_corner n : MovedValue (VGraphic n None) (VGraphic n (Some (1 + dx, 1 + dy, None)))
| Mv_stay n : dx = 0 -> dy = 0 -> MovedValue (VGraphic n None) (VGraphic n None).

(** Text of a page stands behind a text rectangle of the page. *)
Definition Framed (vs : list Value) : Prop :=
  forall a v b, vs = a ++ v :: b -> match v with VText _ | VHexadecimalCharacter _ => True | _ => False end ->
    exists a1 r a2, a = a1 ++ VTextRectangle r :: a2 /\ ~ In VNewPage a2.

(** The raster on a plane of colour [bg]. *)
Definition shown (bg : rgb) (p : Raster rgb) (x y : Z) : rgb := if in_raster p x y then r_pixel p x y else bg.

(** The page [q] is [p] with its picture moved. *)
Definition MovedPage (p q : Page) : Prop :=
  pg_duration p = pg_duration q
  /\ r_width (pg_raster p) = r_width (pg_raster q) /\ r_height (pg_raster p) = r_height (pg_raster q)
  /\ exists bg, forall x y, shown bg (pg_raster p) x y = shown bg (pg_raster q) (x + dx) (y + dy).

End Move.
