(** The [pix] crate's [Raster]: a size and a pixel at each position.  External
    crate; [pixel_mut] panics outside the raster, [copy_color] fills the part of
    a region that lies inside it. *)

From Verif Require Import Base Color.

Record Raster (P : Type) := mkRaster {
  r_width : Z; r_height : Z; r_pixel : Z -> Z -> P }.
Arguments mkRaster {P}.
Arguments r_width {P}.
Arguments r_height {P}.
Arguments r_pixel {P}.

(** [Raster::with_color] *)
Definition with_color {P} (w h : Z) (c : P) : Raster P := mkRaster w h (fun _ _ => c).

(** Position is inside the raster. *)
Definition in_raster {P} (r : Raster P) (x y : Z) : bool :=
  (0 <=? x) && (x <? r_width r) && (0 <=? y) && (y <? r_height r).

(** [*raster.pixel_mut(x, y) = c] *)
Definition set_pixel {P} (r : Raster P) (x y : Z) (c : P) : M (Raster P) :=
  if in_raster r x y then
    Val (mkRaster (r_width r) (r_height r)
           (fun x' y' => if (x' =? x) && (y' =? y) then c else r_pixel r x' y'))
  else Panic.

(** [raster.copy_color(Region::new(x, y, w, h), c)] *)
Definition copy_color {P} (r : Raster P) (x y w h : Z) (c : P) : Raster P :=
  mkRaster (r_width r) (r_height r)
    (fun x' y' =>
       if in_raster r x' y' && (x <=? x') && (x' <? x + w) && (y <=? y') && (y' <? y + h)
       then c else r_pixel r x' y').

(** [0..n] *)
Definition zrange (n : Z) : list Z := map Z.of_nat (seq 0 (Z.to_nat n)).
