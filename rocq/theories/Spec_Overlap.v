(** Colour rectangles and graphics next to each other, and behind one another
    (C78). *)

From Verif Require Import Base Str Multi Color Raster Font Graphic Config Sign Render
  Spec_Sign Spec_Page.
Open Scope list_scope.

(** The pixels, counted from 0, that a colour rectangle or graphic may paint. *)
Inductive Area (d : Dms) : Value -> Z -> Z -> Prop :=
| Ar_rect r c x y : Covers (sign_width_pixels (d_vms_cfg d)) (sign_height_pixels (d_vms_cfg d)) r x y ->
    Area d (VColorRectangle r c) x y
| Ar_graphic n pos g x y : FirstGraphic (d_graphics d) n g ->
    (let '(gx, gy, _) := or_else pos (1, 1, None) in
     gx - 1 <= x < gx - 1 + g_width g /\ gy - 1 <= y < gy - 1 + g_height g) ->
    Area d (VGraphic n pos) x y.

Definition picture (v : Value) : Prop := match v with VColorRectangle _ _ | VGraphic _ _ => True | _ => False end.

(** A pixel of the sign. *)
Definition Shown (d : Dms) (x y : Z) : Prop :=
  0 <= x < sign_width_pixels (d_vms_cfg d) /\ 0 <= y < sign_height_pixels (d_vms_cfg d).

(** The two have no pixel in common. *)
Definition Apart (d : Dms) (v w : Value) : Prop :=
  picture v /\ picture w /\ forall x y, Shown d x y -> ~ (Area d v x y /\ Area d w x y).

(** The first lies behind the colour rectangle. *)
Definition Behind (d : Dms) (v w : Value) : Prop :=
  picture v /\ (exists r c, w = VColorRectangle r c) /\ forall x y, Shown d x y -> Area d v x y -> Area d w x y.

(** Pictures apart from each other exchanged, and pictures behind later ones of
    the same section left out. *)
Inductive Redrawn (d : Dms) : list Value -> list Value -> Prop :=
| Rd_nil : Redrawn d [] []
| Rd_keep v vs ws : Redrawn d vs ws -> Redrawn d (v :: vs) (v :: ws)
| Rd_swap v w vs ws : Apart d v w -> Redrawn d vs ws -> Redrawn d (v :: w :: vs) (w :: v :: ws)
| Rd_hide v l w vs ws : Behind d v w -> ~ In VNewPage l -> (forall r, ~ In (VTextRectangle r) l) ->
    Redrawn d vs ws -> Redrawn d (v :: l ++ w :: vs) (l ++ w :: ws).
