(** Text put behind other text on a line (C85). *)

From Verif Require Import Base Str Multi Color Raster Font Graphic Config Sign Render
  Spec_Multi Spec_Color Spec_Font Spec_Graphic Spec_Sign Spec_Render Spec_Layout Spec_Draw Spec_Page Spec_Below.
Open Scope list_scope.

(** Texts, and the tags that set their colour and spacing. *)
Definition adds_beside (v : Value) : Prop :=
  match v with
  | VText _ | VHexadecimalCharacter _ | VColorForeground _ | VSpacingCharacter _ | VSpacingCharacterEnd => True
  | _ => False
  end.
Definition is_text (v : Value) : Prop :=
  match v with VText _ | VHexadecimalCharacter _ => True | _ => False end.

(** [ws] adds text behind the text at the end of [vs], in the last text rectangle of
    a page, on a line at the left. *)
Definition TextAdded (d : Dms) (front vs ws : list Value) : Prop :=
  Front front /\ no_page_break front /\ no_page_break vs /\ no_text_rect vs
  /\ jl_of d (front ++ vs) = JlLeft
  /\ (exists r v, vs = r ++ [v] /\ is_text v) /\ Forall adds_beside ws
  /\ Orderly d front (vs ++ ws).

(** Column [x] is right of every text of [spans] in the run of [t]. *)
Definition RightOfRun (d : Dms) (spans : list Span) (t : Span) (x : Z) : Prop :=
  forall s left w, In s spans -> SameRun t s -> PlacedX d spans s left -> SpanWidth (d_fonts d) s w -> left + w <= x.
