(** Rounding errors of 32-bit floating point numbers. *)

From Coq Require Import Reals Lra.
From Flocq Require Import Core BinarySingleNaN Relative.
From Verif Require Import Base Geometry.
Open Scope R_scope.

Definition rnd (x : R) : R := round radix2 (SpecFloat.fexp 24 128) ZnearestE x.

#[export] Instance fexp_valid : Valid_exp (SpecFloat.fexp 24 128).
Proof. change (Valid_exp (FLT_exp (-149) 24)). apply FLT_exp_valid. reflexivity. Qed.

Lemma rnd_le x y : x <= y -> rnd x <= rnd y.
Proof. apply round_le; typeclasses eauto. Qed.

Lemma rnd_0 : rnd 0 = 0.
Proof. apply round_0; typeclasses eauto. Qed.

Lemma rnd_pos x : 0 <= x -> 0 <= rnd x.
Proof. intros H. rewrite <- rnd_0. now apply rnd_le. Qed.

(** Relative error 2^-24, absolute error 2^-60. *)
Lemma rnd_err x : Rabs (rnd x - x) <= Rabs x / 16777216 + / 1152921504606846976.
Proof.
  destruct (error_N_FLT radix2 (-149) 24 eq_refl (fun n => negb (Z.even n)) x) as (e & t & He & Ht & _ & E).
  change (rnd x = x * (1 + e) + t) in E. rewrite E.
  replace (x * (1 + e) + t - x) with (x * e + t) by ring.
  eapply Rle_trans; [apply Rabs_triang|]. rewrite Rabs_mult. apply Rplus_le_compat.
  - unfold Rdiv. apply Rmult_le_compat_l; [apply Rabs_pos|]. eapply Rle_trans; [apply He|]. cbn. lra.
  - eapply Rle_trans; [apply Ht|]. apply Rle_trans with (/ 2 * bpow radix2 (-60)).
    + apply Rmult_le_compat_l; [lra|]. apply bpow_le. lia.
    + cbn. lra.
Qed.

(** The same for numbers that are not negative. *)
Lemma rnd_bounds x : 0 <= x ->
  x - x / 16777216 - / 1152921504606846976 <= rnd x <= x + x / 16777216 + / 1152921504606846976 /\ 0 <= rnd x.
Proof.
  intros H. pose proof (rnd_err x) as E. rewrite (Rabs_pos_eq x H) in E. apply Rabs_le_inv in E.
  pose proof (rnd_pos x H). lra.
Qed.

Lemma rnd_format x : generic_format radix2 (SpecFloat.fexp 24 128) x -> rnd x = x.
Proof. intros H. apply round_generic; auto. typeclasses eauto. Qed.

Lemma format_int m e : (Z.abs m <= 2 ^ 24)%Z -> (-149 <= e)%Z ->
  generic_format radix2 (SpecFloat.fexp 24 128) (IZR m * bpow radix2 e).
Proof.
  intros Hm He. destruct (Z.eq_dec (Z.abs m) (2 ^ 24)) as [E|N].
  - assert (IZR m * bpow radix2 e = (if (0 <=? m)%Z then 1 else -1) * bpow radix2 (e + 24)) as ->.
    { rewrite bpow_plus. change (bpow radix2 24) with (IZR (2 ^ 24)). rewrite <- E.
      destruct (Z.leb_spec 0 m).
      - rewrite Z.abs_eq by lia. ring.
      - rewrite Z.abs_neq, opp_IZR by lia. ring. }
    change (generic_format radix2 (FLT_exp (-149) 24) ((if (0 <=? m)%Z then 1 else -1) * bpow radix2 (e + 24))).
    apply generic_format_FLT. exists (Float radix2 (if (0 <=? m)%Z then 1 else -1) (e + 24)).
    + unfold F2R. cbn. now destruct (0 <=? m)%Z.
    + cbn. destruct (0 <=? m)%Z; cbn; lia.
    + cbn. lia.
  - change (generic_format radix2 (FLT_exp (-149) 24) (IZR m * bpow radix2 e)).
    apply generic_format_FLT. exists (Float radix2 m e); [reflexivity| |exact He]. cbn [Fnum].
    change (Z.abs m < 2 ^ 24)%Z. lia.
Qed.

Lemma rnd_int n : (Z.abs n <= 2 ^ 24)%Z -> rnd (IZR n) = IZR n.
Proof.
  intros H. apply rnd_format. replace (IZR n) with (IZR n * bpow radix2 0) by (cbn; ring).
  apply format_int; auto. lia.
Qed.

Lemma rnd_half n : (0 <= n < 65536)%Z -> rnd (IZR n + / 2) = IZR n + / 2.
Proof.
  intros H. apply rnd_format. replace (IZR n + / 2) with (IZR (2 * n + 1) * bpow radix2 (-1)).
  - apply format_int; lia.
  - rewrite plus_IZR, mult_IZR. cbn. field.
Qed.

(** ** Operations *)

(** A finite number of this value. *)
Definition Holds (f : f32) (x : R) : Prop := is_finite f = true /\ B2R f = x.

(** Numbers far from overflow: at most 2^64. *)
Definition Small (x : R) : Prop := Rabs x <= 18446744073709551616.

Lemma small_range x : Small x -> Rlt_bool (Rabs (rnd x)) (bpow radix2 128) = true.
Proof.
  intros H. apply Rlt_bool_true. pose proof (rnd_err x) as E. unfold Small in H.
  assert (Rabs (rnd x) <= Rabs (rnd x - x) + Rabs x).
  { replace (rnd x) with (rnd x - x + x) at 1 by ring. apply Rabs_triang. }
  apply Rle_lt_trans with (bpow radix2 66); [|apply bpow_lt; lia]. cbn. lra.
Qed.

Lemma fadd_holds a b x y : Holds a x -> Holds b y -> Small (x + y) -> Holds (fadd a b) (rnd (x + y)).
Proof.
  intros (Fa & <-) (Fb & <-) H. pose proof (Bplus_correct 24 128 f32_prec f32_emax mode_NE a b Fa Fb) as C.
  pose proof (small_range _ H) as R. unfold rnd in R. cbn [round_mode] in C. rewrite R in C. destruct C as (C1 & C2 & _).
  split; auto.
Qed.

Lemma fsub_holds a b x y : Holds a x -> Holds b y -> Small (x - y) -> Holds (fsub a b) (rnd (x - y)).
Proof.
  intros (Fa & <-) (Fb & <-) H. pose proof (Bminus_correct 24 128 f32_prec f32_emax mode_NE a b Fa Fb) as C.
  pose proof (small_range _ H) as R. unfold rnd in R. cbn [round_mode] in C. rewrite R in C. destruct C as (C1 & C2 & _).
  split; auto.
Qed.

Lemma fmul_holds a b x y : Holds a x -> Holds b y -> Small (x * y) -> Holds (fmul a b) (rnd (x * y)).
Proof.
  intros (Fa & <-) (Fb & <-) H. pose proof (Bmult_correct 24 128 f32_prec f32_emax mode_NE a b) as C.
  pose proof (small_range _ H) as R. unfold rnd in R. cbn [round_mode] in C. rewrite R in C. destruct C as (C1 & C2 & _).
  unfold Holds, fmul. rewrite C2, Fa, Fb. auto.
Qed.

Lemma fdiv_holds a b x y : Holds a x -> Holds b y -> y <> 0 -> Small (x / y) -> Holds (fdiv a b) (rnd (x / y)).
Proof.
  intros (Fa & <-) (Fb & <-) N H. pose proof (Bdiv_correct 24 128 f32_prec f32_emax mode_NE a b N) as C.
  pose proof (small_range _ H) as R. unfold rnd in R. cbn [round_mode] in C. rewrite R in C. destruct C as (C1 & C2 & _).
  unfold Holds, fdiv. rewrite C2, Fa. auto.
Qed.

Lemma f_of_holds n : Small (IZR n) -> Holds (f_of n) (rnd (IZR n)).
Proof.
  intros H. pose proof (binary_normalize_correct 24 128 f32_prec f32_emax mode_NE n 0 false) as C. cbv zeta in C.
  assert (F2R (Float radix2 n 0) = IZR n) as E by (unfold F2R; cbn; ring). rewrite E in C.
  pose proof (small_range _ H) as R. unfold rnd in R. cbn [round_mode] in C. rewrite R in C. destruct C as (C1 & C2 & _).
  split; auto.
Qed.

Lemma f_int n : (Z.abs n <= 2 ^ 24)%Z -> Holds (f_of n) (IZR n).
Proof.
  intros H. rewrite <- (rnd_int n H). apply f_of_holds. unfold Small. rewrite <- abs_IZR.
  change 18446744073709551616 with (IZR 18446744073709551616). apply IZR_le. lia.
Qed.

Lemma half_holds : Holds f_half (/ 2).
Proof.
  pose proof (binary_normalize_correct 24 128 f32_prec f32_emax mode_NE 1 (-1) false) as C. cbv zeta in C.
  assert (F2R (Float radix2 1 (-1)) = / 2) as E by (unfold F2R; cbn; field). rewrite E in C.
  assert (Small (/ 2)) as H by (unfold Small; rewrite Rabs_pos_eq; lra).
  pose proof (small_range _ H) as R. unfold rnd in R. cbn [round_mode] in C. rewrite R in C. destruct C as (C1 & C2 & _).
  split; auto. rewrite <- (rnd_format (/ 2)); auto. replace (/ 2) with (IZR 1 * bpow radix2 (-1)) by (cbn; field).
  apply format_int; lia.
Qed.

Lemma finite_not_nan (a : f32) : is_finite a = true -> is_nan a = false.
Proof. destruct a; cbn; congruence. Qed.

Lemma fmax_holds a b x y : Holds a x -> Holds b y -> Holds (fmax a b) (Rmax x y).
Proof.
  intros (Fa & <-) (Fb & <-). unfold fmax. rewrite !finite_not_nan by auto. rewrite Bltb_correct by auto.
  destruct (Rlt_bool_spec (B2R a) (B2R b)); [rewrite Rmax_right by lra|rewrite Rmax_left by lra]; split; auto.
Qed.

Lemma fmin_holds a b x y : Holds a x -> Holds b y -> Holds (fmin a b) (Rmin x y).
Proof.
  intros (Fa & <-) (Fb & <-). unfold fmin. rewrite !finite_not_nan by auto. rewrite Bltb_correct by auto.
  destruct (Rlt_bool_spec (B2R b) (B2R a)); [rewrite Rmin_right by lra|rewrite Rmin_left by lra]; split; auto.
Qed.
