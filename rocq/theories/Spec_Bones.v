(** Patterns with the same layout (C94). *)

From Verif Require Import Base Str Multi Color Font Config Sign
  Spec_Multi Spec_Color Spec_Sign Spec_Render Spec_Layout Spec_Page Spec_Pattern.
Open Scope list_scope.

(** Malformed pieces, tags that the sign does not support, and values other than text,
    new lines, new pages, text rectangles and fonts. *)
Definition idle (d : Dms) (x : result Value SyntaxError) : Prop :=
  match x with
  | Err _ => True
  | Ok v => ~ Supports d v
      \/ match v with VText _ | VNewLine _ | VNewPage | VTextRectangle _ | VFont _ => False | _ => True end
  end.

(** The same, but for idle pieces, and for what texts and new lines take up the areas. *)
Inductive SameLayout (d : Dms) : list (result Value SyntaxError) -> list (result Value SyntaxError) -> Prop :=
| Sl_nil : SameLayout d [] []
| Sl_left x rs rs' : idle d x -> SameLayout d rs rs' -> SameLayout d (x :: rs) rs'
| Sl_right x rs rs' : idle d x -> SameLayout d rs rs' -> SameLayout d rs (x :: rs')
| Sl_same x rs rs' : SameLayout d rs rs' -> SameLayout d (x :: rs) (x :: rs')
| Sl_room v w rs rs' : takes_room v -> takes_room w -> Supports d v -> Supports d w ->
    SameLayout d rs rs' -> SameLayout d (Ok v :: rs) (Ok w :: rs')
| Sl_more v w rs rs' : takes_room v -> takes_room w -> Supports d v -> Supports d w ->
    SameLayout d (Ok w :: rs) rs' -> SameLayout d (Ok v :: Ok w :: rs) rs'.
