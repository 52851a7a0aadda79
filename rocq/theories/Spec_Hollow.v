(** Text rectangles without text are left out (C80). *)

From Verif Require Import Base Str Multi.
Open Scope list_scope.

(** Values that show nothing and end no line, text rectangle or page. *)
Definition hollow (v : Value) : Prop :=
  match v with
  | VNewPage | VTextRectangle _ | VNewLine _ | VText _ | VHexadecimalCharacter _ | VColorRectangle _ _ | VGraphic _ _ => False
  | _ => True
  end.

(** The second list is the first without some text rectangles that show nothing
    before the next one.  Tags in them stay. *)
Inductive LessHollow : list Value -> list Value -> Prop :=
| Lh_same vs : LessHollow vs vs
| Lh_drop a r s r' b ws : Forall hollow s ->
    LessHollow (a ++ s ++ VTextRectangle r' :: b) ws ->
    LessHollow (a ++ VTextRectangle r :: s ++ VTextRectangle r' :: b) ws.
