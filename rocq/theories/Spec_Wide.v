(** Widths of texts in 16 bits (C21, release builds). *)

From Verif Require Import Base Font Spec_Font.
Open Scope list_scope.

(** No character of the widths [ws], [sp] apart, starts where the width so far is a
    multiple of 2^16 other than 0. *)
Definition NoRestart (sp : Z) (ws : list Z) : Prop :=
  forall a b, ws = a ++ b -> b <> [] -> line_width sp a mod 65536 = 0 -> line_width sp a = 0.
