(** Lines of text added above others (C88). *)

From Verif Require Import Base Str Multi Color Raster Font Graphic Config Sign Render
  Spec_Multi Spec_Color Spec_Font Spec_Graphic Spec_Sign Spec_Render Spec_Layout Spec_Draw Spec_Page Spec_Fail Spec_Below Spec_Longer.
Open Scope list_scope.

(** Tags that leave no text, new line or text rectangle. *)
Definition sets_only (v : Value) : Prop :=
  match v with
  | VText _ | VHexadecimalCharacter _ | VNewLine _ | VTextRectangle _ => False
  | _ => True
  end.
(** Texts and new lines. *)
Definition line_text (v : Value) : Prop :=
  match v with VText _ | VHexadecimalCharacter _ | VNewLine _ => True | _ => False end.

(** [ws] are lines put above the text [ys] of the last text rectangle of a page, all
    at the bottom.  [bs] are the tags before it; no line spacing is in force there. *)
Definition LinesAbove (d : Dms) (e front bs ws ys : list Value) : Prop :=
  Front front /\ Forall sets_only bs
  /\ jp_of d (e ++ front ++ bs) = JpBottom /\ in_force says_lead None (front ++ bs) = None
  /\ (exists r, ws = r ++ [VNewLine None]) /\ Forall line_text ws /\ Forall adds_text ys.
