(** What a BMP file holds, after the description of the format: little-endian
    header fields at fixed places; rows of pixels from the bottom up, each padded
    to a whole number of 32-bit words; a pixel is blue, green, red. *)

From Verif Require Import Base Raster Color.

Definition byte_at (l : list Z) (i : Z) : option Z :=
  if i <? 0 then None else nth_error l (Z.to_nat i).

(** The [n]-byte little-endian number at [i]. *)
Fixpoint le_at (n : nat) (l : list Z) (i : Z) : option Z :=
  match n with
  | O => Some 0
  | S n => match byte_at l i, le_at n l (i + 1) with
           | Some b, Some v => Some (b + 256 * v)
           | _, _ => None
           end
  end.

(** Bytes of a row of [w] pixels of 24 bits. *)
Definition row_bytes (w : Z) : Z := 4 * ((24 * w + 31) / 32).

(** The file [l] is an uncompressed 24-bit image of size [w], [h] with the colour
    [px x y] at column [x] and row [y] counted from the top. *)
Record Image (l : list Z) (w h : Z) (px : Z -> Z -> rgb) : Prop := {
  im_magic : le_at 2 l 0 = Some 19778;            (* "BM" *)
  im_info : le_at 4 l 14 = Some 40;
  im_width : le_at 4 l 18 = Some w;
  im_height : le_at 4 l 22 = Some h;
  im_planes : le_at 2 l 26 = Some 1;
  im_depth : le_at 2 l 28 = Some 24;
  im_plain : le_at 4 l 30 = Some 0;
  im_pixels : exists o, le_at 4 l 10 = Some o
    /\ Z.of_nat (length l) = o + h * row_bytes w
    /\ (forall x y, 0 <= x < w -> 0 <= y < h ->
          let i := o + (h - 1 - y) * row_bytes w + 3 * x in
          let '(r, g, b) := px x y in
          byte_at l i = Some b /\ byte_at l (i + 1) = Some g /\ byte_at l (i + 2) = Some r)
    /\ (forall y k, 0 <= y < h -> 3 * w <= k < row_bytes w -> byte_at l (o + y * row_bytes w + k) = Some 0)
}.

(** The file size that the header gives. *)
Definition SaysSize (l : list Z) (n : Z) : Prop := le_at 4 l 2 = Some n.

(** All components are bytes. *)
Definition Bytes (px : Z -> Z -> rgb) (w h : Z) : Prop :=
  forall x y, 0 <= x < w -> 0 <= y < h -> let '(r, g, b) := px x y in u8 r /\ u8 g /\ u8 b.

(** Sizes of a raster of the [pix] crate. *)
Definition Sized (w h : Z) : Prop := 0 <= w < 2147483648 /\ 0 <= h < 2147483648.
