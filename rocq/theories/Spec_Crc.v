(** Specification of the version id (C18): the frame check sequence of ISO/IEC
    13239, as division of polynomials over the two-element field, independently
    of the shift register in [Crc]. *)

From Verif Require Import Base.
Open Scope list_scope.

(** ** Polynomials *)

(** Coefficients, from the constant one up. *)
Definition poly := list bool.
Definition coef (p : poly) (i : nat) : bool := nth i p false.
Fixpoint padd (p q : poly) : poly :=
  match p, q with
  | [], _ => q
  | _, [] => p
  | a :: p, b :: q => xorb a b :: padd p q
  end.
(** [p] times the power [n] of [x]. *)
Definition pshift (n : nat) (p : poly) : poly := repeat false n ++ p.
Fixpoint pmul (p q : poly) : poly :=
  match p with
  | [] => []
  | a :: p => padd (if a then q else []) (pshift 1 (pmul p q))
  end.
Definition peq (p q : poly) : Prop := forall i, coef p i = coef q i.

(** ** Frame check sequence *)

(** x^16 + x^12 + x^5 + 1. *)
Definition generator : poly :=
  [true; false; false; false; false; true; false; false; false; false; false; false; true;
   false; false; false; true].
Definition ones16 : poly := repeat true 16.

(** The bits of an octet, lowest first, and of a message, in the order they are
    sent. *)
Definition octet_bits (b : Z) : list bool := map (fun i => Z.testbit b (Z.of_nat i)) (seq 0 8).
Definition message_bits (l : list Z) : list bool := List.concat (map octet_bits l).

(** The message as a polynomial: the first bit has the highest power. *)
Definition message_poly (l : list Z) : poly := rev (message_bits l).

(** [r] is the remainder of x^16 M(x) + x^k (x^15 + ... + 1) for a message of
    [k] bits. *)
Definition Remainder (l : list Z) (r : poly) : Prop :=
  List.length r = 16%nat
  /\ exists q, peq (padd (pshift 16 (message_poly l)) (pshift (List.length (message_bits l)) ones16))
                   (padd (pmul q generator) r).

Fixpoint bits_value (bs : list bool) : Z :=
  match bs with [] => 0 | b :: bs => (if b then 1 else 0) + 2 * bits_value bs end.

(** The version id is the sequence as it is sent after the message: the
    complement of the remainder, highest power first, in two octets. *)
Definition VersionId (l : list Z) (id : Z) : Prop :=
  exists r, Remainder l r
    /\ let sent := rev (map negb r) in
       id = 256 * bits_value (firstn 8 sent) + bits_value (skipn 8 sent).
