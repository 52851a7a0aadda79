(** Text rectangles apart from each other change places (C79). *)

From Verif Require Import Base Str Multi Color Raster Font Graphic Config Sign Render
  Spec_Render Spec_Layout Spec_Page.
Open Scope list_scope.

(** Values that say only what texts are and look like. *)
Definition tame (v : Value) : Prop :=
  match v with
  | VNewPage | VTextRectangle _ | VColorRectangle _ _ | VGraphic _ _ | VPageTime _ _ | VPageBackground _ | VColorBackground _ => False
  | _ => True
  end.

(** After the pages [e], two beginnings of a page leave the same settings. *)
Definition Alike (d : Dms) (e u u' : list Value) : Prop :=
  fg_of d (e ++ u) = fg_of d (e ++ u') /\ font_of d (e ++ u) = font_of d (e ++ u')
  /\ jl_of d (e ++ u) = jl_of d (e ++ u') /\ jp_of d (e ++ u) = jp_of d (e ++ u')
  /\ in_force says_spacing None (e ++ u) = in_force says_spacing None (e ++ u')
  /\ in_force says_lead None u = in_force says_lead None u'.

(** The rectangle of a [tr] tag on the sign. *)
Definition tr_rect (d : Dms) (r : Rectangle) : Rectangle :=
  rect_on (sign_width_pixels (d_vms_cfg d)) (sign_height_pixels (d_vms_cfg d)) r.

(** Two text rectangles that may be used have no pixel in common. *)
Definition RectsApart (d : Dms) (r r' : Rectangle) : Prop :=
  GoodTextRect d r /\ GoodTextRect d r'
  /\ forall x y, ~ (InRect (tr_rect d r) x y /\ InRect (tr_rect d r') x y).

Definition next_rect (vs : list Value) : Prop := exists r rest, vs = VTextRectangle r :: rest.
Definition page_end (vs : list Value) : Prop := vs = [] \/ exists rest, vs = VNewPage :: rest.

(** After the pages [e] and the values [u] of the page, the second list is the
    first with neighbouring text rectangles exchanged together with their texts.
    Each leaves the settings as it finds them.  What follows is another text
    rectangle, or the end of a page without a blank page after it. *)
Inductive Swapped (d : Dms) : list Value -> list Value -> list Value -> list Value -> Prop :=
| Sw_nil e u : Swapped d e u [] []
| Sw_keep e u v vs ws : v <> VNewPage -> Swapped d e (u ++ [v]) vs ws -> Swapped d e u (v :: vs) (v :: ws)
| Sw_page e u vs ws : Swapped d (e ++ u) [] vs ws -> Swapped d e u (VNewPage :: vs) (VNewPage :: ws)
| Sw_rects e u r r' s s' vs ws :
    Forall tame s -> Forall tame s' -> Alike d e u (u ++ s) -> Alike d e u (u ++ s') -> RectsApart d r r' ->
    next_rect vs \/ page_end vs /\ snd (times_of d (e ++ u)) = 0 ->
    Swapped d e (u ++ VTextRectangle r :: s ++ VTextRectangle r' :: s') vs ws ->
    Swapped d e u (VTextRectangle r :: s ++ VTextRectangle r' :: s' ++ vs)
                  (VTextRectangle r' :: s' ++ VTextRectangle r :: s ++ ws).
