(** Text put in front of other text on a line (C89). *)

From Verif Require Import Base Str Multi Color Raster Font Graphic Config Sign Render
  Spec_Multi Spec_Color Spec_Font Spec_Graphic Spec_Sign Spec_Render Spec_Layout Spec_Draw Spec_Page Spec_Fail Spec_Below Spec_Beside Spec_Longer.
Open Scope list_scope.

(** [ws] are texts put in front of the text [ys] at the end of the last text rectangle
    of a page.  [vs] is what comes before; it ends where text at the right starts. *)
Definition TextAhead (d : Dms) (e front vs ws ys : list Value) : Prop :=
  Front front /\ no_text_rect vs /\ Orderly d (e ++ front) vs
  /\ jl_of d (e ++ front ++ vs) = JlRight /\ text_at d (e ++ front) 0 vs = 0
  /\ Forall is_text ws /\ Exists is_text ys /\ Forall adds_beside ys.
