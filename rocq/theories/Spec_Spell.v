(** Hexadecimal characters written as text (C76). *)

From Verif Require Import Base Str Multi.
Open Scope list_scope.

(** The same piece of a message, or the character that a hexadecimal character
    tag names as text.  (Character 0 shows nothing.) *)
Inductive SpelledOut : result Value SyntaxError -> result Value SyntaxError -> Prop :=
| So_same x : SpelledOut x x
| So_hex c : is_char c -> c <> 0 -> SpelledOut (Ok (VHexadecimalCharacter c)) (Ok (VText [c])).
