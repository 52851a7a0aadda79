(** Normalizing messages put together (C91). *)

From Verif Require Import Base Str Multi Spec_Multi.
Open Scope list_scope.

(** The last value is shown. *)
Definition EndsShown (vs : list Value) : Prop := exists l v, vs = l ++ [v] /\ Shown v.

(** What [cf], [fo], [jl] and [jp] tags leave in force. *)
Definition left_set (vs : list Value) : Settings := fold_left (fun s v => apply_setting v s) vs settings0.
