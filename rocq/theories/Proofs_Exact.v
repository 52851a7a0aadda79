(** Rounded positions are close to exact ones. *)

From Coq Require Import Reals Lra ZifyBool.
From Flocq Require Import Raux BinarySingleNaN.
From Verif Require Import Base Config Sign Geometry Spec_Sign Spec_Font Spec_Geometry Proofs_Build Proofs_F32 Proofs_Str Proofs_Axis Proofs_Geometry.
Open Scope R_scope.
Ltac Zify.zify_post_hook ::= Z.div_mod_to_equations.

Notation u := (/ 16777216) (only parsing).
Notation h := (/ 1152921504606846976) (only parsing).

Lemma rmin_close a b c e : 0 <= e -> b - e <= c <= b + e -> Rmin a b - e <= Rmin a c <= Rmin a b + e.
Proof. intros H0 H. unfold Rmin. destruct (Rle_dec a b), (Rle_dec a c); lra. Qed.

Lemma rmax_close a b e : 0 <= e -> 0 <= b -> b - e <= a <= b + e -> b - e <= Rmax a 0 <= b + e.
Proof. intros H0 H1 H. unfold Rmax. destruct (Rle_dec a 0); lra. Qed.

Lemma rnd_close x m : Rabs x <= m -> x - m / 16777216 - h <= rnd x <= x + m / 16777216 + h.
Proof. intros H. pose proof (rnd_err x) as E. apply Rabs_le_inv in E. lra. Qed.

(** Scaling of an error. *)
Lemma scale_close k K a b e : 0 <= k <= K -> K * (b - a) <= e -> K * (a - b) <= e -> 0 <= e ->
  k * a - e <= k * b <= k * a + e.
Proof.
  intros Hk H1 H2 He. destruct (Rle_dec a b).
  - assert (k * (b - a) <= K * (b - a)) by (apply Rmult_le_compat_r; lra).
    assert (0 <= k * (b - a)) by (apply Rmult_le_pos; lra). lra.
  - assert (k * (a - b) <= K * (a - b)) by (apply Rmult_le_compat_r; lra).
    assert (0 <= k * (a - b)) by (apply Rmult_le_pos; lra). lra.
Qed.

Section Exact.
Variables F n g pt hb : Z.
Hypothesis HF : (1 <= F <= 65535)%Z.
Hypothesis Hn : (1 <= n)%Z.
Hypothesis Hg : (0 <= g)%Z.
Hypothesis Hp : (n + g <= 65535)%Z.
Hypothesis Ht : (1 <= pt <= 255)%Z.
Hypothesis Hb : (0 <= hb <= 65535)%Z.

Definition ex_pitch : R := Rmin (IZR pt) (IZR F / IZR (n + g)).
Definition ex_border : R :=
  if (0 <? g)%Z then Rmin (IZR hb) ((IZR F - IZR (n + g) * ex_pitch) / 2) else (IZR F - IZR n * ex_pitch) / 2.
Definition ex_gap : R := if (0 <? g)%Z then (IZR F - 2 * ex_border - IZR n * ex_pitch) / IZR g else 0.
Definition ex_pos (x c : Z) : R := ex_border + IZR c * ex_gap + (IZR x + / 2) * ex_pitch.

Notation P := (rx_pitch F n g pt).
Notation E := (rx_extra F n g pt).
Notation B := (rx_border F n g pt hb).
Notation W := (rx_inner F n g pt hb).
Notation X := (rx_excess F n g pt hb).
Notation G := (rx_gap F n g pt hb).

Lemma ex_pitch_range : 0 <= ex_pitch /\ 0 <= IZR n * ex_pitch <= IZR (n + g) * ex_pitch /\ IZR (n + g) * ex_pitch <= IZR F.
Proof.
  destruct (quot_range F n g HF Hn Hg Hp) as (q & Q0 & Q1 & Q2 & Q3 & Q4). pose proof (face_range F HF).
  assert (1 <= IZR pt) by (apply IZR_le; lia).
  assert (0 <= ex_pitch) as A by (unfold ex_pitch; rewrite Q0; apply Rmin_glb; lra).
  assert (1 <= IZR n <= IZR (n + g)) by (split; apply IZR_le; lia).
  splits; auto.
  - apply Rmult_le_pos; lra.
  - apply Rmult_le_compat_r; lra.
  - rewrite <- Q1. apply Rmult_le_compat_l; [lra|]. unfold ex_pitch. rewrite Q0. apply Rmin_r.
Qed.

(** The error of the pitch, for all pixels together. *)
Lemma pitch_close k : 0 <= k <= IZR (n + g) -> k * ex_pitch - 2 * u * IZR F <= k * P <= k * ex_pitch + 2 * u * IZR F.
Proof.
  intros Hk. destruct (quot_range F n g HF Hn Hg Hp) as (q & Q0 & Q1 & Q2 & Q3 & Q4). pose proof (face_range F HF).
  destruct (rnd_bounds q ltac:(lra)) as ((R1 & R2) & R3).
  assert (Rmin (IZR pt) q - (q / 16777216 + h) <= Rmin (IZR pt) (rnd q) <= Rmin (IZR pt) q + (q / 16777216 + h)) as C
    by (apply rmin_close; lra).
  change (Rmin (IZR pt) (rnd q)) with (Rmin (IZR pt) (rnd q)) in C. unfold ex_pitch, rx_pitch. rewrite Q0.
  set (a := Rmin (IZR pt) q) in *. set (b := Rmin (IZR pt) (rnd q)) in *.
  assert (IZR (n + g) * (q / 16777216 + h) <= 2 * u * IZR F) as K.
  { replace (IZR (n + g) * (q / 16777216 + h)) with (IZR (n + g) * q / 16777216 + IZR (n + g) * h) by field. rewrite Q1. lra. }
  apply scale_close with (IZR (n + g)); auto; try lra.
  - apply Rle_trans with (IZR (n + g) * (q / 16777216 + h)); auto. apply Rmult_le_compat_l; lra.
  - apply Rle_trans with (IZR (n + g) * (q / 16777216 + h)); auto. apply Rmult_le_compat_l; lra.
Qed.

Lemma extra_close : let e := IZR F - IZR (n + g) * ex_pitch in 0 <= e /\ e - 5 * u * IZR F <= E <= e + 5 * u * IZR F.
Proof.
  intros e. destruct ex_pitch_range as (A1 & A2 & A3). pose proof (face_range F HF).
  assert (1 <= IZR (n + g)) by (apply IZR_le; lia).
  pose proof (pitch_close (IZR (n + g)) ltac:(lra)) as C.
  assert (0 <= e) by (unfold e; lra). split; auto. unfold rx_extra.
  assert (Rabs (IZR (n + g) * P) <= IZR F + IZR F / 1000) as D by (apply Rabs_le; lra).
  apply rnd_close in D. set (m := rnd (IZR (n + g) * P)) in *.
  assert (Rabs (IZR F - m) <= IZR F + IZR F / 1000) as D2 by (apply Rabs_le; lra).
  apply rnd_close in D2. apply rmax_close; auto; unfold e in *; lra.
Qed.

Lemma border_close : 0 <= ex_border /\ 2 * ex_border <= IZR F - IZR (n + g) * ex_pitch /\
  ex_border - 4 * u * IZR F <= B <= ex_border + 4 * u * IZR F.
Proof.
  pose proof extra_close as C. cbv zeta in C. destruct ex_pitch_range as (A1 & A2 & A3). pose proof (face_range F HF).
  assert (Rabs (E / 2) <= IZR F) as D by (apply Rabs_le; lra). apply rnd_close in D.
  unfold ex_border, rx_border. assert (0 <= IZR hb) by (apply IZR_le; lia).
  destruct (Z.ltb_spec 0 g) as [L|L].
  - split; [|split].
    + apply Rmin_glb; lra.
    + pose proof (Rmin_r (IZR hb) ((IZR F - IZR (n + g) * ex_pitch) / 2)). lra.
    + apply rmin_close; lra.
  - replace (n + g)%Z with n in * by lia. splits; lra.
Qed.

Lemma excess_close : let e := IZR F - 2 * ex_border - IZR n * ex_pitch in 0 <= e /\ e <= IZR F /\ e - 16 * u * IZR F <= X <= e + 16 * u * IZR F.
Proof.
  intros e. destruct border_close as (C1 & C2 & C3). destruct ex_pitch_range as (A1 & A2 & A3). pose proof (face_range F HF).
  assert (1 <= IZR n <= IZR (n + g)) by (split; apply IZR_le; lia).
  pose proof (pitch_close (IZR n) ltac:(lra)) as C.
  assert (0 <= e) by (unfold e; lra). split; [auto|split; [unfold e; lra|]]. unfold rx_excess, rx_inner. rewrite (Rmult_comm P).
  assert (Rabs (IZR n * P) <= IZR F + IZR F / 1000) as D by (apply Rabs_le; lra). apply rnd_close in D.
  assert (Rabs (B * 2) <= IZR F + IZR F / 1000) as D1 by (apply Rabs_le; lra). apply rnd_close in D1.
  set (m := rnd (IZR n * P)) in *. set (b2 := rnd (B * 2)) in *.
  assert (Rabs (IZR F - b2) <= IZR F + IZR F / 100) as D2 by (apply Rabs_le; lra). apply rnd_close in D2.
  set (w := rnd (IZR F - b2)) in *.
  assert (Rabs (w - m) <= IZR F + IZR F / 10) as D3 by (apply Rabs_le; lra). apply rnd_close in D3.
  apply rmax_close; auto; unfold e in *; lra.
Qed.

Lemma gap_close c : (0 <= c <= g)%Z -> 0 <= IZR c * ex_gap <= IZR F /\
  IZR c * ex_gap - 18 * u * IZR F <= IZR c * G <= IZR c * ex_gap + 18 * u * IZR F.
Proof.
  intros Hc. pose proof excess_close as C. cbv zeta in C. pose proof (face_range F HF).
  unfold ex_gap, rx_gap. destruct (Z.ltb_spec 0 g) as [L|L]; [|rewrite !Rmult_0_r; split; lra].
  set (e := IZR F - 2 * ex_border - IZR n * ex_pitch) in *.
  assert (1 <= IZR g <= 65535) as G1 by (split; apply IZR_le; lia).
  assert (0 <= IZR c <= IZR g) as C1 by (split; apply IZR_le; lia).
  assert (0 < / IZR g) as I by (apply Rinv_0_lt_compat; lra).
  assert (IZR g * (e / IZR g) = e) as Q1 by (field; lra). assert (IZR g * (X / IZR g) = X) as Q2 by (field; lra).
  assert (0 <= e / IZR g) as Q3 by (unfold Rdiv; apply Rmult_le_pos; lra).
  set (q1 := e / IZR g) in *. set (q2 := X / IZR g) in *.
  split.
  - split; [apply Rmult_le_pos; lra|]. apply Rle_trans with (IZR g * q1); [apply Rmult_le_compat_r; lra|lra].
  - destruct (excess_range F n g pt hb HF Hn Hg Hp Ht Hb) as (X1 & _).
    assert (0 <= q2) as Q4 by (unfold q2, Rdiv; apply Rmult_le_pos; lra).
    destruct (rnd_bounds q2 Q4) as ((R1 & R2) & R3).
    assert (IZR g * (q2 - q2 / 16777216 - h) <= IZR g * rnd q2 <= IZR g * (q2 + q2 / 16777216 + h)) as S
      by (split; apply Rmult_le_compat_l; lra).
    replace (IZR g * (q2 - q2 / 16777216 - h)) with (IZR g * q2 - IZR g * q2 / 16777216 - IZR g * h) in S by field.
    replace (IZR g * (q2 + q2 / 16777216 + h)) with (IZR g * q2 + IZR g * q2 / 16777216 + IZR g * h) in S by field.
    rewrite Q2 in S. apply scale_close with (IZR g); auto; lra.
Qed.

Lemma pos_close x c : (0 <= x < n)%Z -> (0 <= c <= g)%Z ->
  0 <= ex_pos x c <= 3 * IZR F /\
  ex_pos x c - 40 * u * IZR F <= rx_pos F n g pt hb x c <= ex_pos x c + 40 * u * IZR F.
Proof.
  intros Hx Hc. destruct (gap_close c Hc) as (G1 & G2). destruct border_close as (C1 & C2 & C3).
  destruct ex_pitch_range as (A1 & A2 & A3). pose proof (face_range F HF).
  assert (0 <= IZR x <= IZR n - 1). { split; [apply IZR_le; lia|]. rewrite <- minus_IZR. apply IZR_le. lia. }
  assert (IZR n <= IZR (n + g)) by (apply IZR_le; lia).
  pose proof (pitch_close (IZR x + / 2) ltac:(lra)) as D.
  assert (0 <= (IZR x + / 2) * ex_pitch <= IZR n * ex_pitch) as D1
    by (split; [apply Rmult_le_pos; lra|apply Rmult_le_compat_r; lra]).
  unfold ex_pos, rx_pos, rx_offset. split; [lra|].
  assert (Rabs (IZR c * G) <= 2 * IZR F) as K1 by (apply Rabs_le; lra). apply rnd_close in K1.
  set (o := rnd (IZR c * G)) in *.
  assert (Rabs (B + o) <= 3 * IZR F) as K2 by (apply Rabs_le; lra). apply rnd_close in K2.
  set (s := rnd (B + o)) in *.
  assert (Rabs ((IZR x + / 2) * P) <= 2 * IZR F) as K3 by (apply Rabs_le; lra). apply rnd_close in K3.
  set (y := rnd ((IZR x + / 2) * P)) in *.
  assert (Rabs (s + y) <= 5 * IZR F) as K4 by (apply Rabs_le; lra). apply rnd_close in K4. lra.
Qed.

Lemma scaled_close x c w : (0 <= x < n)%Z -> (0 <= c <= g)%Z -> (0 <= w < 4294967296)%Z ->
  Rabs (rx_scaled F n g pt hb x c w - IZR w * ex_pos x c / IZR F) <= IZR w / 262144.
Proof.
  intros Hx Hc Hw. destruct (pos_close x c Hx Hc) as (P1 & P2). pose proof (face_range F HF).
  destruct (Z.eq_dec w 0) as [->|N].
  - unfold rx_scaled. rewrite rnd_0, !Rmult_0_l, rnd_0. unfold Rdiv. rewrite !Rmult_0_l, rnd_0, Rminus_0_r, Rabs_R0. lra.
  - destruct (size_range w ltac:(lia)) as (W1 & W2 & W3).
    pose proof (pos_range F n g pt hb HF Hn Hg Hp Ht Hb x c Hx Hc) as P3.
    unfold rx_scaled. set (p := rx_pos F n g pt hb x c) in *. set (p' := ex_pos x c) in *.
    assert (Rabs (IZR w) <= IZR w) as K0 by (rewrite Rabs_pos_eq; lra). apply rnd_close in K0.
    set (v := rnd (IZR w)) in *.
    (* the product *)
    assert (IZR w * (p' - 40 * u * IZR F) <= IZR w * p <= IZR w * (p' + 40 * u * IZR F)) as M1
      by (split; apply Rmult_le_compat_l; lra).
    assert (p * (IZR w - 2 * u * IZR w) <= p * v <= p * (IZR w + 2 * u * IZR w)) as M2
      by (split; apply Rmult_le_compat_l; lra).
    assert (0 <= IZR w * p <= IZR w * IZR F) as M3 by (split; [apply Rmult_le_pos; lra|apply Rmult_le_compat_l; lra]).
    assert (1 <= IZR w * IZR F) as M4 by nra.
    set (K := IZR w * IZR F) in *.
    assert (IZR w * p' - 42 * u * K <= v * p <= IZR w * p' + 42 * u * K) as M5.
    { replace (IZR w * (p' - 40 * u * IZR F)) with (IZR w * p' - 40 * u * K) in M1 by (unfold K; ring).
      replace (IZR w * (p' + 40 * u * IZR F)) with (IZR w * p' + 40 * u * K) in M1 by (unfold K; ring).
      replace (p * (IZR w - 2 * u * IZR w)) with (IZR w * p - 2 * u * (IZR w * p)) in M2 by ring.
      replace (p * (IZR w + 2 * u * IZR w)) with (IZR w * p + 2 * u * (IZR w * p)) in M2 by ring.
      rewrite (Rmult_comm v). lra. }
    assert (Rabs (v * p) <= K + K / 1000) as K1 by (apply Rabs_le; lra). apply rnd_close in K1.
    set (z := rnd (v * p)) in *.
    assert (IZR w * p' - 44 * u * K <= z <= IZR w * p' + 44 * u * K) as M6 by lra.
    assert (0 <= z <= K + K / 100) as M7 by (split; [apply rnd_pos; apply Rmult_le_pos; lra|lra]).
    pose proof (div_face F HF z) as D1. pose proof (div_face F HF (IZR w * p')) as D2.
    set (d := z / IZR F) in *. set (d' := IZR w * p' / IZR F) in *.
    assert (d' - 44 * u * IZR w <= d <= d' + 44 * u * IZR w) as M8.
    { split; apply Rmult_le_reg_l with (IZR F); try lra; rewrite ?Rmult_plus_distr_l, ?Rmult_minus_distr_l, D1, D2;
      replace (IZR F * (44 * u * IZR w)) with (44 * u * K) by (unfold K; ring); lra. }
    assert (0 <= d <= IZR w + IZR w / 100) as M9.
    { split; apply Rmult_le_reg_l with (IZR F); try lra; rewrite ?Rmult_0_r, ?Rmult_plus_distr_l, D1; try lra.
      replace (IZR F * IZR w + IZR F * (IZR w / 100)) with (K + K / 100) by (unfold K; field). lra. }
    assert (Rabs d <= IZR w + IZR w / 100) as K2 by (apply Rabs_le; lra). apply rnd_close in K2.
    apply Rabs_le. lra.
Qed.
End Exact.

(** ** The specification *)

Lemma gaps_det n cw g : (1 <= n)%Z -> Gaps n cw g -> g = ax_gaps n cw.
Proof.
  intros Hn H. unfold Gaps, ax_gaps in *. destruct (Z.ltb_spec 1 cw); [|auto].
  destruct (Z.ltb_spec cw n); cbn [andb].
  - apply Z.div_unique with (n - 1 - g * cw)%Z; nia.
  - nia.
Qed.

Lemma char_det cw x c : (0 <= x)%Z -> CharOf cw x c -> c = ax_char cw x.
Proof.
  intros Hx H. unfold CharOf, ax_char in *. destruct (Z.ltb_spec 1 cw); [|auto].
  apply Z.div_unique with (x - c * cw)%Z; nia.
Qed.

Lemma position_det F n pt hb cw x pos :
  (0 <= x < n)%Z -> Position F n pt hb cw x pos ->
  pos = ex_pos F n (ax_gaps n cw) pt hb x (ax_char cw x).
Proof.
  intros Hx (g & c & pitch & border & gap & Hg & Hc & E1 & E2 & E3 & ->).
  apply gaps_det in Hg; [|lia]. apply char_det in Hc; [|lia]. pose proof (ax_char_range n cw x Hx) as R. subst g c.
  set (g := ax_gaps n cw) in *. set (c := ax_char cw x) in *.
  change pitch with pitch in E1. unfold ex_pos. fold (ex_pitch F n g pt) in E1. subst pitch.
  fold (ex_border F n g pt hb) in E2. subst border.
  replace (IZR c * gap) with (IZR c * ex_gap F n g pt hb); [reflexivity|].
  unfold ex_gap. destruct (Z.ltb_spec 0 g) as [L|L].
  - assert (1 <= IZR g) by (apply IZR_le; lia). f_equal. apply Rmult_eq_reg_l with (IZR g); [|lra].
    replace (IZR g * ((IZR F - 2 * ex_border F n g pt hb - IZR n * ex_pitch F n g pt) / IZR g))
      with (IZR F - 2 * ex_border F n g pt hb - IZR n * ex_pitch F n g pt) by (field; lra). lra.
  - replace c with 0%Z by lia. rewrite !Rmult_0_l. reflexivity.
Qed.

Lemma position_exists F n pt hb cw x :
  (1 <= F)%Z -> (0 <= x < n)%Z -> exists pos, Position F n pt hb cw x pos.
Proof.
  intros HF Hx. exists (ex_pos F n (ax_gaps n cw) pt hb x (ax_char cw x)).
  exists (ax_gaps n cw), (ax_char cw x), (ex_pitch F n (ax_gaps n cw) pt), (ex_border F n (ax_gaps n cw) pt hb), (ex_gap F n (ax_gaps n cw) pt hb).
  splits; try reflexivity.
  - unfold Gaps, ax_gaps. destruct (Z.ltb_spec 1 cw); auto. destruct (Z.ltb_spec cw n); cbn [andb]; [|lia].
    pose proof (Z.div_mod (n - 1) cw ltac:(lia)) as D. pose proof (Z.mod_pos_bound (n - 1) cw ltac:(lia)) as D'.
    assert (0 <= (n - 1) / cw)%Z by (apply Z.div_pos; lia). set (q := ((n - 1) / cw)%Z) in *. nia.
  - unfold CharOf, ax_char. destruct (Z.ltb_spec 1 cw); auto.
    pose proof (Z.div_mod x cw ltac:(lia)) as D. pose proof (Z.mod_pos_bound x cw ltac:(lia)) as D'.
    set (q := (x / cw)%Z) in *. nia.
  - set (g := ax_gaps n cw). assert (0 <= g)%Z by (apply ax_gaps_range; lia). unfold ex_gap.
    destruct (Z.ltb_spec 0 g) as [L|L].
    + assert (1 <= IZR g) by (apply IZR_le; lia). field. lra.
    + unfold ex_border. replace (0 <? g)%Z with false by lia. field.
Qed.

(** ** Results for both axes *)

Lemma axis_close F n pt hb cw x w pos :
  (1 <= F <= 65535)%Z -> (n + ax_gaps n cw <= 65535)%Z -> (1 <= pt <= 255)%Z -> (0 <= hb <= 65535)%Z ->
  (0 <= x < n)%Z -> (0 <= w < 4294967296)%Z -> Position F n pt hb cw x pos ->
  Rabs (B2R (ax_pixel F n pt hb (ax_gaps n cw) cw x w) - IZR w * pos / IZR F) <= IZR w / 262144.
Proof.
  intros HF Hp Ht Hb Hx Hw H. pose proof (ax_gaps_range n cw ltac:(lia)).
  destruct (pixel_holds F n (ax_gaps n cw) pt hb HF ltac:(lia) ltac:(lia) Hp Ht Hb cw x w eq_refl Hx Hw) as (_ & ->).
  rewrite (position_det F n pt hb cw x pos Hx H). apply scaled_close; auto; try lia. apply ax_char_range; auto.
Qed.

Lemma gap_char_gaps d : gap_char_count d = ax_gaps (sign_width_pixels (d_vms_cfg d)) (char_width_pixels (d_vms_cfg d)).
Proof. reflexivity. Qed.
Lemma gap_line_gaps d : gap_line_count d = ax_gaps (sign_height_pixels (d_vms_cfg d)) (char_height_pixels (d_vms_cfg d)).
Proof. reflexivity. Qed.

Lemma pixel_x_good md d x w : XAxis d -> (0 <= x < sign_width_pixels (d_vms_cfg d))%Z -> (0 <= w < 4294967296)%Z ->
  exists r, pixel_x md d x w = Val r /\ is_finite r = true /\ 0 <= B2R r <= IZR w /\
    forall pos, XPosition d x pos -> Rabs (B2R r - IZR w * pos / IZR (sign_width (d_sign_cfg d))) <= IZR w / 262144.
Proof.
  intros (A1 & A2 & A3 & A4 & g & Hg & A5 & A6) Hx Hw. apply gaps_det in Hg; auto. subst g.
  pose proof (ax_gaps_range _ (char_width_pixels (d_vms_cfg d)) A5).
  eexists. split; [apply pixel_x_axis; rewrite gap_char_gaps; unfold pixel_width; lia|]. rewrite gap_char_gaps.
  unfold pixel_width, pitch_horiz, char_width.
  destruct (axis_range (sign_width (d_sign_cfg d)) (sign_width_pixels (d_vms_cfg d)) (horizontal_pitch (d_vms_cfg d))
    (horizontal_border (d_sign_cfg d)) (char_width_pixels (d_vms_cfg d)) x w) as (B1 & B2); try lia.
  splits; auto; try lra. intros pos Hpos. apply axis_close; auto; lia.
Qed.

Lemma pixel_x_order md d x y w : XAxis d -> (0 <= x < y)%Z -> (y < sign_width_pixels (d_vms_cfg d))%Z -> (1 <= w < 4294967296)%Z ->
  exists r s, pixel_x md d x w = Val r /\ pixel_x md d y w = Val s /\ Bltb r s = true.
Proof.
  intros H Hx Hy Hw. pose proof (pixel_x_good md d x w H ltac:(lia) ltac:(lia)) as (r & E1 & F1 & _).
  pose proof (pixel_x_good md d y w H ltac:(lia) ltac:(lia)) as (s & E2 & F2 & _). exists r, s. splits; auto.
  rewrite Bltb_correct by auto. apply Rlt_bool_true.
  destruct H as (A1 & A2 & A3 & A4 & g & Hg & A5 & A6). apply gaps_det in Hg; auto. subst g.
  pose proof (ax_gaps_range _ (char_width_pixels (d_vms_cfg d)) A5).
  rewrite pixel_x_axis in E1, E2 by (rewrite gap_char_gaps; unfold pixel_width; lia).
  apply (f_equal (fun m => match m with Val a => B2R a | _ => 0 end)) in E1, E2. cbn beta iota in E1, E2. rewrite <- E1, <- E2.
  rewrite gap_char_gaps. apply axis_order; auto; unfold pixel_width, pitch_horiz, char_width; lia.
Qed.

Lemma pixel_y_good md d y w : YAxis d -> (0 <= y < sign_height_pixels (d_vms_cfg d))%Z -> (0 <= w < 4294967296)%Z ->
  exists r, pixel_y md d y w = Val r /\ is_finite r = true /\ 0 <= B2R r <= IZR w /\
    forall pos, YPosition d y pos -> Rabs (B2R r - IZR w * pos / IZR (sign_height (d_sign_cfg d))) <= IZR w / 262144.
Proof.
  intros (A1 & A2 & A3 & A4 & g & Hg & A5 & A6) Hx Hw. apply gaps_det in Hg; auto. subst g.
  pose proof (ax_gaps_range _ (char_height_pixels (d_vms_cfg d)) A5).
  eexists. split; [apply pixel_y_axis; rewrite gap_line_gaps; unfold pixel_height; lia|]. rewrite gap_line_gaps.
  unfold pixel_height, pitch_vert, char_height.
  destruct (axis_range (sign_height (d_sign_cfg d)) (sign_height_pixels (d_vms_cfg d)) (vertical_pitch (d_vms_cfg d))
    (vertical_border (d_sign_cfg d)) (char_height_pixels (d_vms_cfg d)) y w) as (B1 & B2); try lia.
  splits; auto; try lra. intros pos Hpos. apply axis_close; auto; lia.
Qed.

Lemma pixel_y_order md d x y w : YAxis d -> (0 <= x < y)%Z -> (y < sign_height_pixels (d_vms_cfg d))%Z -> (1 <= w < 4294967296)%Z ->
  exists r s, pixel_y md d x w = Val r /\ pixel_y md d y w = Val s /\ Bltb r s = true.
Proof.
  intros H Hx Hy Hw. pose proof (pixel_y_good md d x w H ltac:(lia) ltac:(lia)) as (r & E1 & F1 & _).
  pose proof (pixel_y_good md d y w H ltac:(lia) ltac:(lia)) as (s & E2 & F2 & _). exists r, s. splits; auto.
  rewrite Bltb_correct by auto. apply Rlt_bool_true.
  destruct H as (A1 & A2 & A3 & A4 & g & Hg & A5 & A6). apply gaps_det in Hg; auto. subst g.
  pose proof (ax_gaps_range _ (char_height_pixels (d_vms_cfg d)) A5).
  rewrite pixel_y_axis in E1, E2 by (rewrite gap_line_gaps; unfold pixel_height; lia).
  apply (f_equal (fun m => match m with Val a => B2R a | _ => 0 end)) in E1, E2. cbn beta iota in E1, E2. rewrite <- E1, <- E2.
  rewrite gap_line_gaps. apply axis_order; auto; unfold pixel_height, pitch_vert, char_height; lia.
Qed.

(** ** Built signs *)

Lemma gaps_some n cw : (1 <= n)%Z -> exists g, Gaps n cw g /\ (0 <= g /\ 2 * g < n)%Z.
Proof.
  intros Hn. exists (ax_gaps n cw). unfold Gaps, ax_gaps. destruct (Z.ltb_spec 1 cw); cbn [andb]; [|lia].
  destruct (Z.ltb_spec cw n); [|lia].
  pose proof (Z.div_mod (n - 1) cw ltac:(lia)) as D. pose proof (Z.mod_pos_bound (n - 1) cw ltac:(lia)) as D'.
  assert (0 <= (n - 1) / cw)%Z by (apply Z.div_pos; lia). set (q := ((n - 1) / cw)%Z) in *. nia.
Qed.

Lemma build_debug_ok b d : builder_fields b -> build Debug b = Val (Ok d) ->
  d_sign_cfg d = b_sign_cfg b /\ d_vms_cfg d = b_vms_cfg b /\ fits_face (b_sign_cfg b) (b_vms_cfg b).
Proof.
  intros Hb E. destruct (build_debug b Hb) as [(r & E' & V)|(E' & _)]; [|congruence].
  rewrite E in E'. injection E' as <-. inversion V as [ | | | |d' F _ _ _ B]; subst. destruct B as (B1 & B2 & _). auto.
Qed.

Lemma built_xaxis b d : builder_fields b -> build Debug b = Val (Ok d) ->
  (1 <= sign_width_pixels (d_vms_cfg d) <= 43690)%Z -> (1 <= horizontal_pitch (d_vms_cfg d))%Z -> XAxis d.
Proof.
  intros Hb E Hn Ht. destruct (build_debug_ok b d Hb E) as (E1 & E2 & F1 & _). unfold XAxis. rewrite E1, E2 in *.
  destruct Hb as ((_ & S2 & S3 & _) & (_ & V2 & _ & V4 & V5 & _) & _). unfold u8, u16, face_width in *.
  destruct (gaps_some (sign_width_pixels (b_vms_cfg b)) (char_width_pixels (b_vms_cfg b)) ltac:(lia)) as (g & G1 & G2 & G3).
  splits; try lia; try nia. exists g. splits; auto; lia.
Qed.

Lemma built_yaxis b d : builder_fields b -> build Debug b = Val (Ok d) ->
  (1 <= sign_height_pixels (d_vms_cfg d) <= 43690)%Z -> (1 <= vertical_pitch (d_vms_cfg d))%Z -> YAxis d.
Proof.
  intros Hb E Hn Ht. destruct (build_debug_ok b d Hb E) as (E1 & E2 & _ & F1). unfold YAxis. rewrite E1, E2 in *.
  destruct Hb as ((S1 & _ & _ & S4) & (V1 & _ & V3 & _ & _ & V6 & _) & _). unfold u8, u16, face_height in *.
  destruct (gaps_some (sign_height_pixels (b_vms_cfg b)) (char_height_pixels (b_vms_cfg b)) ltac:(lia)) as (g & G1 & G2 & G3).
  splits; try lia; try nia. exists g. splits; auto; lia.
Qed.
