(** Text in two parts (C84). *)

From Verif Require Import Base Str Font Spec_Font.
Open Scope list_scope.

(** The text starts with a character that is not of width 0. *)
Definition StartsWide (f : Font) (text : str) : Prop :=
  exists ch r c, text = ch :: r /\ HasChar f ch c /\ 0 < c_width c.
