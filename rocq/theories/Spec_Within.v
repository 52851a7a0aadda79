(** Text put in on a line with more after it (C90). *)

From Verif Require Import Base Str Multi Color Raster Font Graphic Config Sign Render
  Spec_Multi Spec_Color Spec_Font Spec_Graphic Spec_Sign Spec_Render Spec_Layout Spec_Draw Spec_Page Spec_Fail Spec_Below Spec_Beside Spec_Longer.
Open Scope list_scope.

(** Texts, and the tags of a text rectangle that place and colour them. *)
Definition goes_on (v : Value) : Prop :=
  match v with VJustificationPage _ => True | _ => adds_text v end.

(** [ws] is put behind the text at the end of [vs], on a line at the left, in the last
    text rectangle of a page.  [ys] is what comes after, in another line or at another
    place of that line.  [ws] leaves the colour and spacing of texts as they were. *)
Definition TextWithin (d : Dms) (e front vs ws ys : list Value) : Prop :=
  Front front /\ no_text_rect vs /\ Orderly d (e ++ front) (vs ++ ys)
  /\ jl_of d (e ++ front ++ vs) = JlLeft
  /\ (exists r v, vs = r ++ [v] /\ is_text v)
  /\ Forall adds_beside ws
  /\ fg_of d (e ++ front ++ vs ++ ws) = fg_of d (e ++ front ++ vs)
  /\ in_force says_spacing None (e ++ front ++ vs ++ ws) = in_force says_spacing None (e ++ front ++ vs)
  /\ (exists v r, ys = v :: r /\ match v with VNewLine _ | VJustificationLine _ => True | _ => False end)
  /\ Forall goes_on ys.

(** [ws] are texts put in front of the text [ys], where text at the right starts, in the
    last text rectangle of a page.  [zs] is what comes after. *)
Definition TextWithinRight (d : Dms) (e front vs ws ys zs : list Value) : Prop :=
  Front front /\ no_text_rect vs /\ Orderly d (e ++ front) ((vs ++ ys) ++ zs)
  /\ jl_of d (e ++ front ++ vs) = JlRight /\ text_at d (e ++ front) 0 vs = 0
  /\ Forall is_text ws
  /\ (exists r v, ys = r ++ [v] /\ is_text v) /\ Forall adds_beside ys
  /\ (exists v r, zs = v :: r /\ match v with VNewLine _ | VJustificationLine _ => True | _ => False end)
  /\ Forall goes_on zs.
