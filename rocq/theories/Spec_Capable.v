(** Signs that support more tags (C82). *)

From Verif Require Import Base Str Multi Color Raster Font Graphic Config Sign Render
  Spec_Multi Spec_Render Spec_Gamut Spec_Alike.
Open Scope list_scope.

(** The sign [d'] supports every tag of the message that [d] supports. *)
Definition MoreTags (d d' : Dms) (ms : str) : Prop :=
  forall v, Says ms v -> Supports d v -> Supports d' v.

(** The signs have what the message names in common: fonts, and graphics. *)
Definition SameStock (d d' : Dms) (ms : str) : Prop :=
  (forall n, UsesFont d ms n -> SameFont d d' n) /\ (forall n, UsesGraphic ms n -> SameGraphic d d' n).

(** Not the error for tags that are unknown or not supported. *)
Definition NoTagError (x : result Page SyntaxError) : Prop :=
  forall s, x <> Err (SUnsupportedTag s).
