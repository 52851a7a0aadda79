(** Model of src/dms/oer.rs.  Each function gives the bytes that the Rust
    method pushes onto the buffer. *)

From Verif Require Import Base.

(** [v as u8] *)
Definition as_u8 (v : Z) : Z := v mod 256.

(** oer.rs 23-26: [Oer::u8] *)
Definition oer_u8 (v : Z) : list Z := [v].

(** oer.rs 28-32: [Oer::u16] *)
Definition oer_u16 (v : Z) : list Z := [as_u8 (Z.shiftr v 8); as_u8 v].

(** oer.rs 34-39: [Oer::u24] *)
Definition oer_u24 (v : Z) : list Z :=
  [as_u8 (Z.shiftr v 16); as_u8 (Z.shiftr v 8); as_u8 v].

(** oer.rs 41-47: [Oer::u32] *)
Definition oer_u32 (v : Z) : list Z :=
  [as_u8 (Z.shiftr v 24); as_u8 (Z.shiftr v 16); as_u8 (Z.shiftr v 8); as_u8 v].

(** oer.rs 49-66: [Oer::length_prefix] *)
Definition length_prefix (n : Z) : list Z :=
  if n <=? 127 then [as_u8 n]
  else if n <=? 255 then Z.lor 128 1 :: oer_u8 (as_u8 n)
  else if n <=? 65535 then Z.lor 128 2 :: oer_u16 (n mod 65536)
  else if n <=? 16777215 then Z.lor 128 3 :: oer_u24 n
  else Z.lor 128 4 :: oer_u32 n.

(** oer.rs 68-83: [Oer::uint] *)
Definition oer_uint (v : Z) : list Z :=
  if v <=? 255 then length_prefix 1 ++ oer_u8 (as_u8 v)
  else if v <=? 65535 then length_prefix 2 ++ oer_u16 (v mod 65536)
  else if v <=? 16777215 then length_prefix 3 ++ oer_u24 v
  else length_prefix 4 ++ oer_u32 v.

(** oer.rs 85-89: [Oer::octet_string] *)
Definition octet_string (octets : list Z) : list Z :=
  length_prefix (Z.of_nat (length octets) mod 4294967296) ++ octets.

(** oer.rs 91-94: [Oer::octet_str] *)
Definition octet_str (octets : list Z) : list Z := octets.
