(** Model of examples/bmp/mod.rs: the BMP files that the examples write.  The
    pixels of rendered pages are [SRgb8]; [Raster::with_raster] to [SBgr8] keeps
    the three components.  [fs::write] is outside the model: the result is the
    bytes given to it. *)

From Verif Require Import Base Raster Color.

(** [v as u8] *)
Definition low8 (v : Z) : Z := v mod 256.

(** 61-66: [write_u32] *)
Definition write_u32 (v : Z) : list Z :=
  [low8 v; low8 (Z.shiftr v 8); low8 (Z.shiftr v 16); low8 (Z.shiftr v 24)].

(** 68-71: [write_u16] *)
Definition write_u16 (v : Z) : list Z := [low8 v; low8 (Z.shiftr v 8)].

(** u32 arithmetic *)
Definition chk32 (md : mode) (v : Z) : M Z := chk md 4294967296 v.

(** 23-31: [write_header] *)
Definition write_header (md : mode) (r : Raster rgb) : M (list Z) :=
  let data_offset := 14 + 40 in
  let! sz := chk32 md (r_width r * r_height r) in
  let! s3 := chk32 md (sz * 3) in
  let! n := chk32 md (data_offset + s3) in
  Val ([66; 77] ++ write_u32 n ++ write_u32 0 ++ write_u32 data_offset).

(** 33-45: [write_info_header] *)
Definition write_info_header (r : Raster rgb) : list Z :=
  write_u32 40 ++ write_u32 (r_width r) ++ write_u32 (r_height r)
  ++ write_u16 1 ++ write_u16 24 ++ write_u32 0 ++ write_u32 0
  ++ write_u32 100 ++ write_u32 100 ++ write_u32 0 ++ write_u32 0.

(** 51-55: the bytes of a pixel *)
Definition write_pixel (c : rgb) : list Z := let '(r, g, b) := c in [b; g; r].

(** 51-58: the bytes of a row *)
Definition write_row (r : Raster rgb) (padding y : Z) : list Z :=
  flat_map (fun x => write_pixel (r_pixel r x y)) (zrange (r_width r))
  ++ repeat 0 (Z.to_nat padding).

(** 47-59: [write_pixel_data] *)
Definition write_pixel_data (md : mode) (r : Raster rgb) : M (list Z) :=
  let! w3 := chk32 md (3 * r_width r) in
  let padding := (4 - w3 mod 4) mod 4 in
  Val (flat_map (write_row r padding) (rev (zrange (r_height r)))).

(** 10-21: [write] *)
Definition bmp_write (md : mode) (r : Raster rgb) : M (list Z) :=
  let! h := write_header md r in
  let! p := write_pixel_data md r in
  Val (h ++ write_info_header r ++ p).
