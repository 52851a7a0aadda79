(** Text added in another place of a text rectangle (C86). *)

From Verif Require Import Base Str Multi Color Raster Font Graphic Config Sign Render
  Spec_Multi Spec_Color Spec_Font Spec_Graphic Spec_Sign Spec_Render Spec_Layout Spec_Draw Spec_Page Spec_Below Spec_Beside.
Open Scope list_scope.

(** [ws] adds text to the last text rectangle of a page, below [vs]: its page
    justification comes after those of the text there is (as the bottom after the
    top). *)
Definition BlockAdded (d : Dms) (front vs ws : list Value) : Prop :=
  Front front /\ no_page_break front /\ no_page_break vs /\ no_text_rect vs
  /\ (exists j r, ws = VJustificationPage j :: r /\ Forall adds_text r
        /\ jp_rank (jp_of d (front ++ vs)) < jp_rank (jp_of d (front ++ vs ++ [VJustificationPage j])))
  /\ Orderly d front (vs ++ ws).

(** [ws] adds text behind the text at the end of [vs], in the last text rectangle of
    a page, with a line justification that comes after that of [vs]. *)
Definition RunAdded (d : Dms) (front vs ws : list Value) : Prop :=
  Front front /\ no_page_break front /\ no_page_break vs /\ no_text_rect vs
  /\ (exists r v, vs = r ++ [v] /\ is_text v)
  /\ (exists j r, ws = VJustificationLine j :: r /\ Forall adds_beside r
        /\ jl_rank (jl_of d (front ++ vs)) < jl_rank (jl_of d (front ++ vs ++ [VJustificationLine j])))
  /\ Orderly d front (vs ++ ws).
