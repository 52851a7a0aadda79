(** A message on a larger sign (C74). *)

From Verif Require Import Base Str Multi Color Raster Graphic Config Sign Render Spec_Sign Spec_Move.
Open Scope list_scope.

Section Grow.

Variables dx dy : Z.

(** The first sign, set into the second with [dx] columns at its left and [dy] rows
    above it.  Signs with character cells are set in by whole cells.
    (A sign that is built drops graphics larger than itself.) *)
Definition SetInto (d d' : Dms) : Prop :=
  let v := d_vms_cfg d in let v' := d_vms_cfg d' in
  (0 <= dx /\ 0 <= sign_width_pixels v /\ sign_width_pixels v + dx <= sign_width_pixels v' < 65535)
  /\ (0 <= dy /\ 0 <= sign_height_pixels v /\ sign_height_pixels v + dy <= sign_height_pixels v' < 65535)
  /\ (char_width_pixels v = char_width_pixels v' /\ char_height_pixels v = char_height_pixels v')
  /\ (mono_fg v = mono_fg v' /\ mono_bg v = mono_bg v')
  /\ (dx mod Z.max (char_width_pixels v) 1 = 0 /\ dy mod Z.max (char_height_pixels v) 1 = 0)
  /\ d_fonts d = d_fonts d' /\ (forall n g, FirstGraphic (d_graphics d) n g -> FirstGraphic (d_graphics d') n g) /\ d_multi_cfg d = d_multi_cfg d'.

Definition size_is (p : Page) (d : Dms) : Prop :=
  r_width (pg_raster p) = sign_width_pixels (d_vms_cfg d) /\ r_height (pg_raster p) = sign_height_pixels (d_vms_cfg d).

(** The page [q] shows [p] at its place on a plain background.  (A blank page between
    pages can have the size of a text rectangle.) *)
Definition SetPage (d d' : Dms) (p q : Page) : Prop :=
  pg_duration p = pg_duration q
  /\ (size_is p d /\ size_is q d'
      \/ r_width (pg_raster p) = r_width (pg_raster q) /\ r_height (pg_raster p) = r_height (pg_raster q))
  /\ exists bg, forall x y, shown bg (pg_raster p) x y = shown bg (pg_raster q) (x + dx) (y + dy).

End Grow.

(** No rectangle of the message reaches to the edge of the sign. *)
Definition Bounded (vs : list Value) : Prop :=
  forall r, In (VTextRectangle r) vs \/ (exists c, In (VColorRectangle r c) vs) -> 0 < rwidth r /\ 0 < rheight r.
