(** The shift register computes the remainder. *)

From Coq Require Import ZifyBool ZifyNat.
From Verif Require Import Base Crc Oer Spec_Crc Spec_Color Proofs_Oer.
Open Scope list_scope.
Ltac Zify.zify_post_hook ::= Z.div_mod_to_equations.

(** ** Coefficients *)

Lemma coef_nil i : coef [] i = false.
Proof. destruct i; reflexivity. Qed.

Lemma coef_padd p : forall q i, coef (padd p q) i = xorb (coef p i) (coef q i).
Proof.
  induction p as [|a p IH]; intros [|b q] i; cbn [padd].
  - now rewrite coef_nil.
  - rewrite coef_nil. now rewrite Bool.xorb_false_l.
  - rewrite coef_nil. now rewrite Bool.xorb_false_r.
  - destruct i; [reflexivity|]. exact (IH q i).
Qed.

Lemma coef_shift n p i : coef (pshift n p) i = if (i <? n)%nat then false else coef p (i - n).
Proof.
  unfold pshift, coef. destruct (Nat.ltb_spec i n) as [L|L].
  - rewrite app_nth1 by (rewrite repeat_length; lia). apply nth_repeat.
  - rewrite app_nth2 by (rewrite repeat_length; lia). now rewrite repeat_length.
Qed.

Lemma coef_pmul a p q i : coef (pmul (a :: p) q) i
  = xorb (a && coef q i) (match i with O => false | S j => coef (pmul p q) j end).
Proof.
  cbn [pmul]. rewrite coef_padd, coef_shift. f_equal.
  - destruct a; [reflexivity|apply coef_nil].
  - destruct i; [reflexivity|]. cbn [Nat.ltb Nat.leb]. f_equal. lia.
Qed.

(** ** Uniqueness *)

Lemma generator_high i : (17 <= i)%nat -> coef generator i = false.
Proof. intros H. apply nth_overflow. cbn. lia. Qed.

Lemma pmul_zero p q : (forall i, coef p i = false) -> forall i, coef (pmul p q) i = false.
Proof.
  induction p as [|a p IH]; intros H i; [apply coef_nil|]. rewrite coef_pmul.
  pose proof (H 0%nat) as H0. cbn in H0. subst a. cbn [andb].
  destruct i; auto. rewrite IH; [reflexivity|]. intros j. apply (H (S j)).
Qed.

Lemma pmul_degree p : (forall i, (16 <= i)%nat -> coef (pmul p generator) i = false) -> forall i, coef p i = false.
Proof.
  induction p as [|a p IH]; intros H; [apply coef_nil|].
  assert (forall i, coef p i = false) as Hp.
  { apply IH. intros i Hi. specialize (H (S i) ltac:(lia)). rewrite coef_pmul in H.
    rewrite generator_high in H by lia. now rewrite andb_false_r, Bool.xorb_false_l in H. }
  specialize (H 16%nat (le_n _)). rewrite coef_pmul in H. rewrite (pmul_zero p) in H by auto.
  cbn in H. intros [|i]; [|apply Hp]. destruct a; [discriminate|reflexivity].
Qed.

Lemma coef_pmul_padd p : forall p' q i, coef (pmul (padd p p') q) i = xorb (coef (pmul p q) i) (coef (pmul p' q) i).
Proof.
  induction p as [|a p IH]; intros [|a' p'] q i; cbn [padd].
  - change (pmul [] q) with (@nil bool). now rewrite coef_nil.
  - change (pmul [] q) with (@nil bool). rewrite coef_nil. now rewrite Bool.xorb_false_l.
  - change (pmul [] q) with (@nil bool). rewrite coef_nil. now rewrite Bool.xorb_false_r.
  - rewrite !coef_pmul. destruct i.
    + destruct a, a', (coef q 0); reflexivity.
    + rewrite IH. destruct a, a', (coef q (S i)), (coef (pmul p q) i), (coef (pmul p' q) i); reflexivity.
Qed.

Lemma Remainder_fun l r r' : Remainder l r -> Remainder l r' -> r = r'.
Proof.
  intros [Hr (q & E)] [Hr' (q' & E')].
  assert (forall i, xorb (coef (pmul q generator) i) (coef r i) = xorb (coef (pmul q' generator) i) (coef r' i)) as EE.
  { intros i. rewrite <- !coef_padd. now rewrite <- E, <- E'. }
  assert (forall i, coef (padd q q') i = false) as Z.
  { apply pmul_degree. intros i Hi. rewrite coef_pmul_padd. specialize (EE i).
    assert (coef r i = false) as R by (apply nth_overflow; lia).
    assert (coef r' i = false) as R' by (apply nth_overflow; lia).
    rewrite R, R', !Bool.xorb_false_r in EE. rewrite EE. apply Bool.xorb_nilpotent. }
  apply (nth_ext r r' false false); [congruence|]. intros i _. specialize (EE i).
  pose proof (pmul_zero _ generator Z i) as Z'. rewrite coef_pmul_padd in Z'.
  fold (coef r i) (coef r' i).
  destruct (coef (pmul q generator) i), (coef (pmul q' generator) i); cbn in Z'; try discriminate;
    destruct (coef r i), (coef r' i); cbn in EE; congruence.
Qed.

(** ** The register *)

(** Bit 0 of the register is the coefficient of x^15. *)
Definition reg_poly (r : Z) : poly := map (fun j => Z.testbit r (15 - Z.of_nat j)) (seq 0 16).

Lemma coef_reg r j : coef (reg_poly r) j = if (j <? 16)%nat then Z.testbit r (15 - Z.of_nat j) else false.
Proof.
  unfold coef, reg_poly. destruct (Nat.ltb_spec j 16) as [L|L].
  - rewrite (nth_indep _ false (Z.testbit r (15 - Z.of_nat 0))) by (rewrite map_length, seq_length; lia).
    rewrite (map_nth (fun j => Z.testbit r (15 - Z.of_nat j))). rewrite seq_nth by lia. reflexivity.
  - apply nth_overflow. rewrite map_length, seq_length. lia.
Qed.

(** [M] is the message so far, its last bit first. *)
Definition Inv (M : list bool) (r : Z) : Prop :=
  u16 r /\ exists q, forall i,
    xorb (coef (pshift 16 M) i) (coef (pshift (List.length M) ones16) i)
    = xorb (coef (pmul q generator) i) (coef (reg_poly r) i).

Lemma inv_start : Inv [] 65535.
Proof.
  split; [unfold u16; lia|]. exists []. intros i. rewrite !coef_shift, coef_reg. cbn [List.length Nat.ltb Nat.leb].
  rewrite !coef_nil, Nat.sub_0_r. destruct (Nat.ltb_spec i 16) as [L|L].
  - do 16 (destruct i as [|i]; [reflexivity|]). lia.
  - change (coef (pmul [] generator) i) with (coef [] i). rewrite ?coef_nil.
    assert ((i <=? 15)%nat = false) as -> by lia. unfold coef, ones16. now rewrite nth_overflow by (rewrite repeat_length; lia).
Qed.

Definition crc_step (r : Z) (b : bool) : Z := crc_bit (Z.lxor r (Z.b2z b)).

Lemma testbit_33800 n : 0 <= n -> Z.testbit 33800 n = (n =? 3) || (n =? 10) || (n =? 15).
Proof.
  intros H. destruct (Z.ltb_spec n 16) as [L|L].
  - assert (n = 0 \/ n = 1 \/ n = 2 \/ n = 3 \/ n = 4 \/ n = 5 \/ n = 6 \/ n = 7 \/ n = 8 \/ n = 9 \/ n = 10 \/ n = 11
      \/ n = 12 \/ n = 13 \/ n = 14 \/ n = 15) as D by lia.
    repeat (destruct D as [->|D]; [reflexivity|]). subst. reflexivity.
  - rewrite Z.bits_above_log2; [lia|lia|]. change (Z.log2 33800) with 15. lia.
Qed.

Lemma u16_bit_high r n : u16 r -> 16 <= n -> Z.testbit r n = false.
Proof.
  intros H L. destruct (Z.eq_dec r 0) as [->|N]; [apply Z.bits_0|]. unfold u16 in H.
  apply Z.bits_above_log2; [lia|]. assert (Z.log2 r < 16); [|lia]. apply Z.log2_lt_pow2; [lia|]. change (2 ^ 16) with 65536. lia.
Qed.

Lemma b2z_u16 b : u16 (Z.b2z b).
Proof. unfold u16. destruct b; cbn; lia. Qed.

Lemma testbit_step r b n : u16 r -> 0 <= n ->
  Z.testbit (crc_step r b) n
  = xorb (Z.testbit r (n + 1)) (xorb (Z.testbit r 0) b && ((n =? 3) || (n =? 10) || (n =? 15))).
Proof.
  intros Hr Hn. unfold crc_step, crc_bit. rewrite <- Z.bit0_odd.
  assert (forall k, Z.testbit (Z.lxor r (Z.b2z b)) k = xorb (Z.testbit r k) ((k =? 0) && b)) as E.
  { intros k. rewrite Z.lxor_spec. f_equal. destruct (Z.eqb_spec k 0) as [->|N].
    - destruct b; reflexivity.
    - destruct b; cbn [Z.b2z andb]; [|apply Z.bits_0]. destruct k; try reflexivity. lia. }
  rewrite E. cbn [Z.eqb andb].
  destruct (xorb (Z.testbit r 0) b) eqn:EO; cbn [andb].
  - rewrite Z.lxor_spec, Z.shiftr_spec, testbit_33800, E by lia.
    assert ((n + 1 =? 0) = false) as -> by lia. cbn [andb]. now rewrite Bool.xorb_false_r.
  - rewrite Z.shiftr_spec, E by lia. assert ((n + 1 =? 0) = false) as -> by lia. cbn [andb]. reflexivity.
Qed.

Lemma step_u16 r b : u16 r -> u16 (crc_step r b).
Proof. intros H. apply crc_bit_u16, lxor_u16; auto. apply b2z_u16. Qed.

Lemma coef_reg_step r b i : u16 r ->
  coef (reg_poly (crc_step r b)) i
  = xorb (xorb (match i with O => false | S j => coef (reg_poly r) j end) (b && (i =? 16)%nat))
         (xorb (Z.testbit r 0) b && coef generator i).
Proof.
  intros Hr. rewrite coef_reg. destruct (Nat.ltb_spec i 16) as [L|L].
  - rewrite testbit_step by (auto; lia).
    assert ((i =? 16)%nat = false) as -> by lia. rewrite andb_false_r, Bool.xorb_false_r.
    destruct i as [|j].
    + change (15 - Z.of_nat 0 + 1) with 16. rewrite (u16_bit_high r 16) by (auto; lia). cbn.
      now rewrite andb_true_r.
    + rewrite coef_reg. assert ((j <? 16)%nat = true) as -> by lia.
      replace (15 - Z.of_nat (S j) + 1) with (15 - Z.of_nat j) by lia. f_equal. f_equal.
      do 15 (destruct j as [|j]; [reflexivity|]). lia.
  - destruct i as [|j]; [lia|]. rewrite coef_reg. destruct (Nat.eq_dec j 15) as [->|N].
    + cbn. rewrite ?Z.bit0_odd. destruct (Z.odd r), b; reflexivity.
    + assert ((j <? 16)%nat = false) as -> by lia. assert ((S j =? 16)%nat = false) as -> by lia.
      rewrite generator_high by lia. now rewrite !andb_false_r.
Qed.

Lemma inv_step M r b : Inv M r -> Inv (b :: M) (crc_step r b).
Proof.
  intros [Hr (q & E)]. split; [now apply step_u16|]. exists (xorb (Z.testbit r 0) b :: q). intros i.
  rewrite coef_pmul, coef_reg_step by auto.
  assert (xorb (coef (pshift 16 (b :: M)) i) (coef (pshift (List.length (b :: M)) ones16) i)
    = xorb (match i with O => false | S j => xorb (coef (pshift 16 M) j) (coef (pshift (List.length M) ones16) j) end)
           (b && (i =? 16)%nat)) as ->.
  { rewrite !coef_shift. cbn [List.length]. destruct i as [|j]; [now rewrite andb_false_r|]. rewrite !coef_shift.
    change (S j <? S (List.length M))%nat with (j <? List.length M)%nat.
    change (S j - S (List.length M))%nat with (j - List.length M)%nat.
    set (o := if (j <? List.length M)%nat then false else coef ones16 (j - List.length M)). clearbody o.
    destruct (Nat.ltb_spec (S j) 16) as [L|L].
    - assert ((j <? 16)%nat = true) as -> by lia. assert ((S j =? 16)%nat = false) as -> by lia.
      rewrite andb_false_r. now destruct o.
    - destruct (Nat.eqb_spec (S j) 16) as [E16|N].
      + assert ((j <? 16)%nat = true) as -> by lia. rewrite E16. cbn [Nat.sub]. change (coef (b :: M) 0) with b.
        rewrite andb_true_r. destruct b, o; reflexivity.
      + assert ((j <? 16)%nat = false) as -> by lia. rewrite andb_false_r, Bool.xorb_false_r. f_equal.
        replace (S j - 16)%nat with (S (j - 16)) by lia. reflexivity. }
  destruct i as [|j].
  - cbn [xorb]. destruct (xorb (Z.testbit r 0) b && coef generator 0), (b && (0 =? 16)%nat); reflexivity.
  - rewrite E. destruct (coef (pmul q generator) j), (coef (reg_poly r) j), (b && (S j =? 16)%nat),
      (xorb (Z.testbit r 0) b && coef generator (S j)); reflexivity.
Qed.

Lemma inv_steps bs : forall M r, Inv M r -> Inv (rev bs ++ M) (fold_left crc_step bs r).
Proof.
  induction bs as [|b bs IH]; intros M r H; [exact H|]. cbn [rev fold_left]. rewrite <- app_assoc. apply IH.
  now apply inv_step.
Qed.

(** ** Bytes *)

Lemma crc_bit_double b : crc_bit (2 * b) = b.
Proof.
  unfold crc_bit. rewrite Z.odd_mul. cbn [Z.odd andb]. rewrite Z.shiftr_div_pow2 by lia. change (2 ^ 1) with 2.
  rewrite Z.mul_comm. apply Z.div_mul. lia.
Qed.

Lemma lxor_low b : b = Z.lxor (Z.b2z (Z.testbit b 0)) (2 * (b / 2)).
Proof.
  rewrite (Z.div_mod b 2) at 1 by lia. rewrite Z.lxor_comm. rewrite <- Z.add_nocarry_lxor.
  - f_equal. rewrite Z.bit0_mod. reflexivity.
  - apply Z.bits_inj'. intros n Hn. rewrite Z.land_spec, Z.bits_0.
    destruct (Z.eq_dec n 0) as [->|N].
    + rewrite Z.testbit_even_0. reflexivity.
    + assert (Z.testbit (Z.b2z (Z.testbit b 0)) n = false) as ->; [|apply andb_false_r].
      destruct (Z.testbit b 0); cbn [Z.b2z]; [|apply Z.bits_0]. destruct n; try reflexivity. lia.
Qed.

Lemma crc_bit_first r b : crc_bit (Z.lxor r b) = Z.lxor (crc_step r (Z.testbit b 0)) (b / 2).
Proof.
  rewrite (lxor_low b) at 1. rewrite <- Z.lxor_assoc, crc_bit_lxor, crc_bit_double. reflexivity.
Qed.

Lemma byte_steps r b : u8 b -> crc_byte r b = fold_left crc_step (octet_bits b) r.
Proof.
  intros Hb. unfold octet_bits. cbn [seq map fold_left]. unfold crc_byte.
  rewrite !crc_bit_first.
  assert (b / 2 / 2 / 2 / 2 / 2 / 2 / 2 / 2 = 0) as -> by (unfold u8 in Hb; lia). rewrite Z.lxor_0_r.
  assert (forall c n, 0 <= n -> Z.testbit (c / 2) n = Z.testbit c (n + 1)) as T.
  { intros c n Hn. change 2 with (2 ^ 1). now rewrite Z.div_pow2_bits by lia. }
  rewrite !T by lia. reflexivity.
Qed.

Lemma bytes_steps l : Forall u8 l -> forall r, fold_left crc_byte l r = fold_left crc_step (message_bits l) r.
Proof.
  induction 1 as [|b l Hb H IH]; intros r; [reflexivity|]. unfold message_bits. cbn [fold_left map List.concat].
  rewrite fold_left_app, <- byte_steps by auto. apply IH.
Qed.

Lemma crc_remainder l : Forall u8 l -> Remainder l (reg_poly (fold_left crc_byte l 65535)).
Proof.
  intros H. rewrite bytes_steps by auto. destruct (inv_steps (message_bits l) [] 65535 inv_start) as [_ (q & E)].
  rewrite app_nil_r in E. split; [reflexivity|]. exists q. intros i. rewrite !coef_padd. rewrite <- E.
  now rewrite rev_length.
Qed.

Lemma bits_value_seq r n : 0 <= r -> forall k,
  bits_value (map (fun i => Z.testbit r (Z.of_nat i)) (seq k n)) = (r / 2 ^ Z.of_nat k) mod 2 ^ Z.of_nat n.
Proof.
  intros Hr. induction n as [|n IH]; intros k; cbn [seq map bits_value].
  - now rewrite Z.mod_1_r.
  - rewrite IH. rewrite (Nat2Z.inj_succ n), (Z.pow_succ_r 2 (Z.of_nat n)) by lia.
    rewrite Z.rem_mul_r by lia. f_equal.
    + rewrite <- Z.testbit_spec' by lia. destruct (Z.testbit r (Z.of_nat k)); reflexivity.
    + rewrite (Nat2Z.inj_succ k), (Z.pow_succ_r 2 (Z.of_nat k)) by lia.
      rewrite (Z.mul_comm 2 (2 ^ Z.of_nat k)). rewrite Z.div_div by lia. reflexivity.
Qed.

Lemma testbit_65535 n : 0 <= n < 16 -> Z.testbit 65535 n = true.
Proof.
  intros H. change 65535 with (Z.ones 16). apply Z.ones_spec_low. lia.
Qed.

Lemma version_id l : Forall u8 l -> VersionId l (from_be (crc16 l)).
Proof.
  intros H. exists (reg_poly (fold_left crc_byte l 65535)). split; [now apply crc_remainder|].
  pose proof (crc16_u16 l H) as Hu. unfold from_be. unfold crc16 in *. set (r := fold_left crc_byte l 65535) in *. clearbody r.
  assert (rev (map negb (reg_poly r)) = map (fun i => Z.testbit (Z.lxor r 65535) (Z.of_nat i)) (seq 0 16)) as ->.
  { unfold reg_poly. cbn [seq map rev app].
    assert (forall n, 0 <= n < 16 -> negb (Z.testbit r n) = Z.testbit (Z.lxor r 65535) n) as E.
    { intros n Hn. rewrite Z.lxor_spec, testbit_65535 by lia. now rewrite Bool.xorb_true_r. }
    rewrite !E by lia. reflexivity. }
  cbv zeta. set (c := Z.lxor r 65535) in *. clearbody c. unfold u16 in Hu.
  change (firstn 8 (map (fun i => Z.testbit c (Z.of_nat i)) (seq 0 16))) with (map (fun i => Z.testbit c (Z.of_nat i)) (seq 0 8)).
  change (skipn 8 (map (fun i => Z.testbit c (Z.of_nat i)) (seq 0 16))) with (map (fun i => Z.testbit c (Z.of_nat i)) (seq 8 8)).
  rewrite !bits_value_seq by lia. change (2 ^ Z.of_nat 0) with 1. change (2 ^ Z.of_nat 8) with 256. lia.
Qed.

Lemma VersionId_fun l a b : VersionId l a -> VersionId l b -> a = b.
Proof. intros (r & H & ->) (r' & H' & ->). now rewrite (Remainder_fun l r r' H H'). Qed.
