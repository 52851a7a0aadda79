(** The [crc] crate's CRC_16_IBM_SDLC (width 16, poly 0x1021, reflected in and
    out, init 0xFFFF, xorout 0xFFFF), bit by bit.  External crate: the crate
    uses tables; the algorithm parameters are those of its catalogue. *)

From Verif Require Import Base.

(** One bit of the reflected shift register (0x8408 is 0x1021 reflected). *)
Definition crc_bit (r : Z) : Z :=
  if Z.odd r then Z.lxor (Z.shiftr r 1) 33800 else Z.shiftr r 1.

(** One byte. *)
Definition crc_byte (r b : Z) : Z :=
  crc_bit (crc_bit (crc_bit (crc_bit (crc_bit (crc_bit (crc_bit (crc_bit
    (Z.lxor r b)))))))).

(** [CRC.checksum(&buf)]: font/mod.rs 15-16, graphic.rs 17-18. *)
Definition crc16 (buf : list Z) : Z :=
  Z.lxor (fold_left crc_byte buf 65535) 65535.

(** [u16::from_be] on a little-endian target. *)
Definition from_be (v : Z) : Z := (v mod 256) * 256 + v / 256.
