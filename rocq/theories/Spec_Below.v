(** Lines of text added below others (C83). *)

From Verif Require Import Base Str Multi Color Raster Font Graphic Config Sign Render
  Spec_Multi Spec_Color Spec_Font Spec_Graphic Spec_Sign Spec_Render Spec_Layout Spec_Draw Spec_Page.
Open Scope list_scope.

(** The values of a page in front of its last text rectangle: nothing, or values up
    to a [tr] tag. *)
Inductive Front : list Value -> Prop :=
| Fr_nil : Front []
| Fr_rect a r b : no_text_rect a -> Front b -> Front (a ++ VTextRectangle r :: b).

(** Texts, and the tags that set how they look (but not where on the page). *)
Definition adds_text (v : Value) : Prop :=
  match v with
  | VText _ | VHexadecimalCharacter _ | VNewLine _ | VColorForeground _ | VFont _
  | VJustificationLine _ | VSpacingCharacter _ | VSpacingCharacterEnd => True
  | _ => False
  end.

(** [ws] adds lines below the text [vs] of the last text rectangle of a page, which
    is at the top and regular, as are the lines added. *)
Definition LinesAdded (d : Dms) (front vs ws : list Value) : Prop :=
  Front front /\ no_page_break front /\ no_page_break vs /\ no_text_rect vs
  /\ jp_of d (front ++ vs) = JpTop
  /\ (exists o r, ws = VNewLine o :: r) /\ Forall adds_text ws
  /\ Orderly d front (vs ++ ws).

(** The last text rectangle of a page. *)
Definition last_place (d : Dms) (front pg : list Value) : Place :=
  mkPlace [] pg front (last_rect d front).

(** Row [y] is below every line of the texts [spans]. *)
Definition BelowAll (d : Dms) (spans : list Span) (y : Z) : Prop :=
  forall s top h, In s spans -> PlacedY d spans s top -> HeightOf (d_fonts d) s h -> top + h <= y.
