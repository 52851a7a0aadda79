(** C57: the BMP files of the examples. *)

From Coq Require Import String.
From Verif Require Import Base Str Raster Color Bmp Spec_Bmp Proofs_Bmp.
Open Scope list_scope.

(** The file written for a raster is a 24-bit image of its size and its pixels, in
    both modes. *)
Theorem c57_image : forall md r l, Sized (r_width r) (r_height r) -> bmp_write md r = Val l ->
  Image l (r_width r) (r_height r) (r_pixel r).
Proof. exact image. Qed.
Print Assumptions c57_image.

(** A file is an image of one raster only. *)
Theorem c57_one_image : forall l w h px w' h' px', Image l w h px -> Image l w' h' px' ->
  w' = w /\ h' = h /\ forall x y, 0 <= x < w -> 0 <= y < h -> px' x y = px x y.
Proof. exact image_fun. Qed.
Print Assumptions c57_one_image.

(** It consists of bytes. *)
Theorem c57_bytes : forall md r l, Sized (r_width r) (r_height r) -> Bytes (r_pixel r) (r_width r) (r_height r) ->
  bmp_write md r = Val l -> Forall u8 l.
Proof. exact bytes_out. Qed.
Print Assumptions c57_bytes.

(** Writing panics exactly in debug builds on images of 2^32 bytes or more. *)
Theorem c57_panics : forall md r, Sized (r_width r) (r_height r) ->
  (bmp_write md r = Panic <-> md = Debug
     /\ (4294967296 <= 54 + 3 * (r_width r * r_height r) \/ 4294967296 <= 3 * r_width r))
  /\ bmp_write md r <> Hang.
Proof. exact panics. Qed.
Print Assumptions c57_panics.

(** The file size in the header leaves out the padding of the rows: it is right
    exactly for widths that are multiples of 4. *)
Theorem c57_size_partial : forall r l, Sized (r_width r) (r_height r) -> bmp_write Debug r = Val l ->
  (SaysSize l (Z.of_nat (List.length l)) <-> r_width r mod 4 = 0 \/ r_height r = 0).
Proof. exact size_right. Qed.
Print Assumptions c57_size_partial.

(** A picture of two by two pixels, red, green, blue and white, and its file. *)
Definition bx : Raster rgb :=
  mkRaster 2 2 (fun x y => if y =? 0 then (if x =? 0 then (255, 0, 0) else (0, 255, 0))
                           else if x =? 0 then (0, 0, 255) else (255, 255, 255)).

Theorem c57_size_refuted : exists r l, Sized (r_width r) (r_height r) /\ Bytes (r_pixel r) (r_width r) (r_height r)
  /\ bmp_write Debug r = Val l /\ SaysSize l 66 /\ Z.of_nat (List.length l) = 70.
Proof.
  eexists bx, _. split; [split; cbn; lia|]. split.
  - intros x y X Y. unfold bx. cbn. destruct (y =? 0), (x =? 0); unfold u8; lia.
  - split; [vm_compute; reflexivity|]. split; reflexivity.
Qed.
Print Assumptions c57_size_refuted.

Example c57_file : bmp_write Debug bx
  = Val ([66; 77; 66; 0; 0; 0; 0; 0; 0; 0; 54; 0; 0; 0; 40; 0; 0; 0; 2; 0; 0; 0; 2; 0; 0; 0; 1; 0; 24; 0;
          0; 0; 0; 0; 0; 0; 0; 0; 100; 0; 0; 0; 100; 0; 0; 0; 0; 0; 0; 0; 0; 0; 0; 0]
         ++ [255; 0; 0; 255; 255; 255; 0; 0] ++ [0; 0; 255; 0; 255; 0; 0; 0]).
Proof. vm_compute. reflexivity. Qed.

(** A raster that debug builds refuse. *)
Example c57_big : bmp_write Debug (mkRaster 40000 40000 (fun _ _ => (0, 0, 0))) = Panic.
Proof. vm_compute. reflexivity. Qed.
