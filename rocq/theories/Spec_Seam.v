(** Messages put together (C81). *)

From Verif Require Import Base Str Multi Spec_Multi.
Open Scope list_scope.

(** The first message is empty, or its last token is also one before the second. *)
Definition Seam (a b : str) : Prop :=
  a = [] \/ exists ts t, Tokens a (ts ++ [t]) /\ Token t b.
