(** The positions of pixels along one axis of the sign, in real numbers with
    rounding after every operation. *)

From Coq Require Import Reals Lra.
From Flocq Require Import Raux.
From Verif Require Import Base Geometry Proofs_F32 Proofs_Str.
Open Scope R_scope.

Notation u := (/ 16777216) (only parsing).
Notation h := (/ 1152921504606846976) (only parsing).

Section Axis.
(** Face (mm), pixels, gaps, pitch (mm), border (mm). *)
Variables F n g pt hb : Z.

Definition rx_pitch : R := Rmin (IZR pt) (rnd (IZR F / IZR (n + g))).
Definition rx_extra : R := Rmax (rnd (IZR F - rnd (IZR (n + g) * rx_pitch))) 0.
Definition rx_border : R :=
  if (0 <? g)%Z then Rmin (IZR hb) (rnd (rx_extra / 2)) else rnd (rx_extra / 2).
Definition rx_inner : R := rnd (IZR F - rnd (rx_border * 2)).
Definition rx_excess : R := Rmax (rnd (rx_inner - rnd (rx_pitch * IZR n))) 0.
Definition rx_gap : R := if (0 <? g)%Z then rnd (rx_excess / IZR g) else 0.
Definition rx_offset (c : Z) : R := rnd (IZR c * rx_gap).
Definition rx_pos (x c : Z) : R := rnd (rnd (rx_border + rx_offset c) + rnd ((IZR x + / 2) * rx_pitch)).
Definition rx_scaled (x c w : Z) : R := rnd (rnd (rnd (IZR w) * rx_pos x c) / IZR F).

Hypothesis HF : (1 <= F <= 65535)%Z.
Hypothesis Hn : (1 <= n)%Z.
Hypothesis Hg : (0 <= g)%Z.
Hypothesis Hp : (n + g <= 65535)%Z.
Hypothesis Ht : (1 <= pt <= 255)%Z.
Hypothesis Hb : (0 <= hb <= 65535)%Z.

Lemma face_range : 1 <= IZR F <= 65535.
Proof. split; apply IZR_le; lia. Qed.

Lemma quot_range : exists q, IZR F / IZR (n + g) = q /\ IZR (n + g) * q = IZR F /\ IZR F / 65535 <= q /\ q <= IZR F /\ 1 <= IZR (n + g) <= 65535.
Proof.
  pose proof face_range as A.
  assert (1 <= IZR (n + g) <= 65535) as B by (split; apply IZR_le; lia).
  exists (IZR F / IZR (n + g)).
  assert (IZR (n + g) * (IZR F / IZR (n + g)) = IZR F) as C by (field; lra).
  splits; auto; try lra.
  - unfold Rdiv. apply Rmult_le_compat_l; [lra|]. apply Rinv_le_contravar; lra.
  - assert (0 <= IZR F / IZR (n + g)). { unfold Rdiv. apply Rmult_le_pos; [lra|]. left. apply Rinv_0_lt_compat. lra. }
    nra.
Qed.

Lemma pitch_range : IZR F / 65536 <= rx_pitch /\ IZR (n + g) * rx_pitch <= IZR F + 2 * u * IZR F /\ rx_pitch <= 255.
Proof.
  pose proof face_range as A. destruct quot_range as (q & E & Q & Q1 & Q2 & B).
  unfold rx_pitch. rewrite E. assert (1 <= IZR pt <= 255) as T by (split; apply IZR_le; lia).
  destruct (rnd_bounds q ltac:(lra)) as ((R1 & R2) & R3).
  splits.
  - apply Rmin_glb; lra.
  - apply Rle_trans with (IZR (n + g) * rnd q).
    + apply Rmult_le_compat_l; [lra|]. apply Rmin_r.
    + apply Rle_trans with (IZR (n + g) * (q + q / 16777216 + h)).
      * apply Rmult_le_compat_l; lra.
      * replace (IZR (n + g) * (q + q / 16777216 + h)) with (IZR (n + g) * q + IZR (n + g) * q / 16777216 + IZR (n + g) * h) by field.
        rewrite Q. lra.
  - eapply Rle_trans; [apply Rmin_l|]. lra.
Qed.

Lemma pixels_le : IZR n * rx_pitch <= IZR (n + g) * rx_pitch /\ 0 <= IZR n * rx_pitch.
Proof.
  destruct pitch_range as (A & B & C). pose proof face_range.
  assert (0 <= rx_pitch) by lra. split.
  - apply Rmult_le_compat_r; auto. apply IZR_le. lia.
  - apply Rmult_le_pos; auto. apply IZR_le. lia.
Qed.

Lemma extra_range : 0 <= rx_extra <= Rmax 0 (IZR F - IZR (n + g) * rx_pitch) + 4 * u * IZR F.
Proof.
  destruct pitch_range as (A & B & C). destruct pixels_le as (D & E). pose proof face_range as G.
  unfold rx_extra. set (pP := IZR (n + g) * rx_pitch) in *.
  destruct (rnd_bounds pP ltac:(lra)) as ((R1 & R2) & R3).
  split; [apply Rmax_r|]. apply Rmax_lub.
  - destruct (Rle_dec 0 (IZR F - rnd pP)) as [L|L].
    + destruct (rnd_bounds _ L) as ((S1 & S2) & S3).
      pose proof (Rmax_r 0 (IZR F - pP)). lra.
    + assert (rnd (IZR F - rnd pP) <= 0) by (rewrite <- rnd_0; apply rnd_le; lra).
      pose proof (Rmax_l 0 (IZR F - pP)). lra.
  - pose proof (Rmax_l 0 (IZR F - pP)). lra.
Qed.

Lemma border_range : 0 <= rx_border /\ 2 * rx_border <= Rmax 0 (IZR F - IZR (n + g) * rx_pitch) + 6 * u * IZR F.
Proof.
  destruct extra_range as (A & B). pose proof face_range as G.
  destruct pixels_le as (D & E). destruct (rnd_bounds (rx_extra / 2) ltac:(lra)) as ((R1 & R2) & R3).
  assert (Rmax 0 (IZR F - IZR (n + g) * rx_pitch) <= IZR F) by (apply Rmax_lub; lra).
  assert (rx_border <= rnd (rx_extra / 2) /\ 0 <= rx_border) as (K1 & K2).
  { unfold rx_border. assert (0 <= IZR hb) by (apply IZR_le; lia).
    destruct (0 <? g)%Z; split; try lra.
    - apply Rmin_r.
    - apply Rmin_glb; lra. }
  split; auto. lra.
Qed.

Lemma inner_range : IZR F - 2 * rx_border - 4 * u * IZR F <= rx_inner <= IZR F - 2 * rx_border + 4 * u * IZR F.
Proof.
  destruct border_range as (A & B). pose proof face_range as G. destruct pixels_le as (D & E).
  assert (Rmax 0 (IZR F - IZR (n + g) * rx_pitch) <= IZR F) by (apply Rmax_lub; lra).
  unfold rx_inner. destruct (rnd_bounds (rx_border * 2) ltac:(lra)) as ((R1 & R2) & R3).
  pose proof (rnd_err (IZR F - rnd (rx_border * 2))) as S. apply Rabs_le_inv in S.
  assert (Rabs (IZR F - rnd (rx_border * 2)) <= IZR F + 1 / 1000 * IZR F) by (apply Rabs_le; lra).
  lra.
Qed.

Lemma excess_range : 0 <= rx_excess <= Rmax 0 (IZR F - 2 * rx_border - IZR n * rx_pitch) + 10 * u * IZR F.
Proof.
  destruct border_range as (A & B). pose proof face_range as G. destruct pixels_le as (D & E).
  destruct pitch_range as (P1 & P2 & P3). destruct inner_range as (I1 & I2).
  unfold rx_excess. rewrite (Rmult_comm rx_pitch). destruct (rnd_bounds (IZR n * rx_pitch) ltac:(lra)) as ((R1 & R2) & R3).
  set (T := IZR F - 2 * rx_border - IZR n * rx_pitch) in *. split; [apply Rmax_r|]. apply Rmax_lub.
  - destruct (Rle_dec 0 (rx_inner - rnd (IZR n * rx_pitch))) as [L|L].
    + destruct (rnd_bounds _ L) as ((S1 & S2) & S3).
      pose proof (Rmax_r 0 T). unfold T in *. lra.
    + assert (rnd (rx_inner - rnd (IZR n * rx_pitch)) <= 0) by (rewrite <- rnd_0; apply rnd_le; lra).
      pose proof (Rmax_l 0 T). lra.
  - pose proof (Rmax_l 0 T). lra.
Qed.

Lemma excess_le : rx_excess <= IZR F + 10 * u * IZR F.
Proof.
  destruct excess_range as (A & B). destruct border_range as (C & _). destruct pixels_le as (D & E). pose proof face_range.
  assert (Rmax 0 (IZR F - 2 * rx_border - IZR n * rx_pitch) <= IZR F) by (apply Rmax_lub; lra). lra.
Qed.

Lemma gap_range : 0 <= rx_gap /\ IZR g * rx_gap <= rx_excess + 2 * u * IZR F.
Proof.
  destruct excess_range as (A & _). pose proof excess_le as B. pose proof face_range.
  unfold rx_gap. destruct (Z.ltb_spec 0 g) as [L|L].
  - assert (1 <= IZR g <= 65535) as G by (split; apply IZR_le; lia).
    assert (0 <= rx_excess / IZR g) as Q. { unfold Rdiv. apply Rmult_le_pos; [lra|]. left. apply Rinv_0_lt_compat. lra. }
    destruct (rnd_bounds _ Q) as ((R1 & R2) & R3). split; auto.
    apply Rle_trans with (IZR g * (rx_excess / IZR g + rx_excess / IZR g / 16777216 + h)).
    + apply Rmult_le_compat_l; lra.
    + replace (IZR g * (rx_excess / IZR g + rx_excess / IZR g / 16777216 + h)) with (rx_excess + rx_excess / 16777216 + IZR g * h) by (field; lra).
      lra.
  - split; [lra|]. rewrite Rmult_0_r. lra.
Qed.

Lemma offset_range c : (0 <= c <= g)%Z -> 0 <= rx_offset c <= rx_excess + 4 * u * IZR F.
Proof.
  intros Hc. destruct gap_range as (A & B). pose proof face_range. pose proof excess_le.
  assert (0 <= IZR c * rx_gap <= IZR g * rx_gap) as C.
  { split; [apply Rmult_le_pos; auto; apply IZR_le; lia|]. apply Rmult_le_compat_r; auto. apply IZR_le. lia. }
  unfold rx_offset. destruct (rnd_bounds _ (proj1 C)) as ((R1 & R2) & R3). lra.
Qed.

Lemma offset_mono c1 c2 : (0 <= c1 <= c2)%Z -> rx_offset c1 <= rx_offset c2.
Proof.
  intros Hc. destruct gap_range as (A & B). apply rnd_le. apply Rmult_le_compat_r; auto. apply IZR_le. lia.
Qed.

Lemma gap_le : rx_gap <= 2 * IZR F.
Proof.
  destruct gap_range as (A & B). pose proof face_range. pose proof excess_le. destruct excess_range.
  unfold rx_gap in *. destruct (Z.ltb_spec 0 g) as [L|L]; [|lra].
  assert (1 <= IZR g) by (apply IZR_le; lia). nra.
Qed.

(** The real distance of the pixel's centre inside the run of pixels. *)
Lemma centre_range x : (0 <= x < n)%Z ->
  rx_pitch / 2 <= (IZR x + / 2) * rx_pitch <= IZR n * rx_pitch - rx_pitch / 2.
Proof.
  intros Hx. destruct pitch_range as (A & _). pose proof face_range.
  assert (0 <= IZR x <= IZR n - 1). { split; [apply IZR_le; lia|]. rewrite <- minus_IZR. apply IZR_le. lia. }
  assert (0 < rx_pitch) by lra. nra.
Qed.

Lemma sum_range x c : (0 <= x < n)%Z -> (0 <= c <= g)%Z ->
  0 <= rx_border + rx_offset c <= 2 * IZR F /\
  rx_pitch / 4 <= rnd ((IZR x + / 2) * rx_pitch) <= 2 * IZR F /\
  rnd (rx_border + rx_offset c) + rnd ((IZR x + / 2) * rx_pitch) <= IZR F - rx_pitch / 2 + 32 * u * IZR F.
Proof.
  intros Hx Hc. pose proof (centre_range x Hx) as (C1 & C2). destruct pitch_range as (P1 & P2 & P3).
  pose proof (offset_range c Hc) as (O1 & O2). destruct border_range as (B1 & B2). destruct excess_range as (X1 & X2).
  pose proof excess_le as X3. destruct pixels_le as (N1 & N2). pose proof face_range as G.
  assert (0 <= rx_pitch) as PP by lra.
  destruct (rnd_bounds ((IZR x + / 2) * rx_pitch) ltac:(lra)) as ((R1 & R2) & R3).
  assert (0 <= rx_border + rx_offset c) as S by lra.
  destruct (rnd_bounds _ S) as ((S1 & S2) & S3).
  revert B2 X2. unfold Rmax. destruct (Rle_dec 0 _) as [D|D]; destruct (Rle_dec 0 _) as [D'|D']; intros B2 X2;
  splits; lra.
Qed.

Lemma pos_range x c : (0 <= x < n)%Z -> (0 <= c <= g)%Z ->
  IZR F / 524288 <= rx_pos x c <= IZR F - IZR F / 262144.
Proof.
  intros Hx Hc. destruct (sum_range x c Hx Hc) as ((A1 & A2) & (B1 & B2) & C). pose proof face_range as G.
  destruct pitch_range as (P1 & P2 & P3).
  pose proof (rnd_pos _ A1) as A3.
  unfold rx_pos. destruct (rnd_bounds (rnd (rx_border + rx_offset c) + rnd ((IZR x + / 2) * rx_pitch)) ltac:(lra)) as ((R1 & R2) & R3).
  lra.
Qed.

Lemma pos_mono x1 c1 x2 c2 : (0 <= x1 < x2)%Z -> (x2 < n)%Z -> (0 <= c1 <= c2)%Z -> (c2 <= g)%Z ->
  rx_pos x1 c1 + IZR F / 131072 <= rx_pos x2 c2.
Proof.
  intros Hx Hx2 Hc Hc2. pose proof face_range as G. destruct pitch_range as (P1 & P2 & P3).
  destruct (sum_range x1 c1 ltac:(lia) ltac:(lia)) as ((A1 & A2) & (B1 & B2) & C).
  destruct (sum_range x2 c2 ltac:(lia) ltac:(lia)) as ((A1' & A2') & (B1' & B2') & C').
  pose proof (centre_range x1 ltac:(lia)) as (D1 & D2). pose proof (centre_range x2 ltac:(lia)) as (E1 & E2).
  destruct pixels_le as (N1 & N2).
  assert ((IZR x1 + / 2) * rx_pitch + rx_pitch <= (IZR x2 + / 2) * rx_pitch) as X.
  { assert (IZR x1 + 1 <= IZR x2) by (rewrite <- plus_IZR; apply IZR_le; lia). nra. }
  pose proof (offset_mono c1 c2 Hc) as O.
  assert (rnd (rx_border + rx_offset c1) <= rnd (rx_border + rx_offset c2)) as S by (apply rnd_le; lra).
  pose proof (rnd_pos _ A1) as A3. pose proof (rnd_pos _ A1') as A3'.
  assert (rnd ((IZR x1 + / 2) * rx_pitch) + rx_pitch - 4 * u * IZR F <= rnd ((IZR x2 + / 2) * rx_pitch)) as Y.
  { destruct (rnd_bounds ((IZR x1 + / 2) * rx_pitch) ltac:(lra)) as ((R1 & R2) & R3).
    destruct (rnd_bounds ((IZR x2 + / 2) * rx_pitch) ltac:(lra)) as ((Q1 & Q2) & Q3). lra. }
  unfold rx_pos. set (s1 := rnd (rx_border + rx_offset c1)) in *. set (s2 := rnd (rx_border + rx_offset c2)) in *.
  set (y1 := rnd ((IZR x1 + / 2) * rx_pitch)) in *. set (y2 := rnd ((IZR x2 + / 2) * rx_pitch)) in *.
  destruct (rnd_bounds (s1 + y1) ltac:(lra)) as ((R1 & R2) & R3).
  destruct (rnd_bounds (s2 + y2) ltac:(lra)) as ((Q1 & Q2) & Q3). lra.
Qed.

(** ** Scaling *)

Lemma size_range w : (1 <= w < 4294967296)%Z -> 1 <= IZR w <= 4294967296 /\ IZR w / 2 <= rnd (IZR w) <= IZR w + 2 * u * IZR w.
Proof.
  intros Hw. assert (1 <= IZR w <= 4294967296) as A by (split; apply IZR_le; lia). split; auto.
  destruct (rnd_bounds (IZR w) ltac:(lra)) as ((R1 & R2) & R3). lra.
Qed.

Lemma div_face z : IZR F * (z / IZR F) = z.
Proof. pose proof face_range. field. lra. Qed.

Lemma scaled_range x c w : (0 <= x < n)%Z -> (0 <= c <= g)%Z -> (0 <= w < 4294967296)%Z ->
  0 <= rx_scaled x c w <= IZR w.
Proof.
  intros Hx Hc Hw. pose proof face_range as G. pose proof (pos_range x c Hx Hc) as (P1 & P2).
  unfold rx_scaled. destruct (Z.eq_dec w 0) as [->|N].
  - rewrite rnd_0, Rmult_0_l, rnd_0. unfold Rdiv. rewrite Rmult_0_l, rnd_0. lra.
  - destruct (size_range w ltac:(lia)) as (W1 & W2 & W3). set (p := rx_pos x c) in *. set (v := rnd (IZR w)) in *.
    assert (0 <= v * p) as V by (apply Rmult_le_pos; lra).
    assert (v * p <= (IZR w + 2 * u * IZR w) * (IZR F - IZR F / 262144)) as V2 by (apply Rmult_le_compat; lra).
    replace ((IZR w + 2 * u * IZR w) * (IZR F - IZR F / 262144)) with ((1 + 2 * u) * (1 - / 262144) * (IZR w * IZR F)) in V2 by field.
    assert (1 <= IZR w * IZR F) as K by nra.
    destruct (rnd_bounds _ V) as ((R1 & R2) & R3).
    assert (rnd (v * p) <= (1 - / 524288) * (IZR w * IZR F)) as Z1 by lra.
    set (z := rnd (v * p)) in *. pose proof (div_face z) as D. set (d := z / IZR F) in *.
    assert (0 <= d) as D1 by (unfold d, Rdiv; apply Rmult_le_pos; auto; left; apply Rinv_0_lt_compat; lra).
    assert (d <= (1 - / 524288) * IZR w) as D2.
    { apply Rmult_le_reg_l with (IZR F); [lra|]. rewrite D. lra. }
    destruct (rnd_bounds _ D1) as ((Q1 & Q2) & Q3). lra.
Qed.

Lemma scaled_mono x1 c1 x2 c2 w : (0 <= x1 < x2)%Z -> (x2 < n)%Z -> (0 <= c1 <= c2)%Z -> (c2 <= g)%Z ->
  (1 <= w < 4294967296)%Z -> rx_scaled x1 c1 w < rx_scaled x2 c2 w.
Proof.
  intros Hx Hx2 Hc Hc2 Hw. pose proof face_range as G.
  pose proof (pos_range x1 c1 ltac:(lia) ltac:(lia)) as (P1 & P2).
  pose proof (pos_range x2 c2 ltac:(lia) ltac:(lia)) as (P1' & P2').
  pose proof (pos_mono x1 c1 x2 c2 Hx Hx2 Hc Hc2) as M.
  destruct (size_range w Hw) as (W1 & W2 & W3). unfold rx_scaled.
  set (p := rx_pos x1 c1) in *. set (p' := rx_pos x2 c2) in *. set (v := rnd (IZR w)) in *.
  assert (0 <= v * p <= v * IZR F) as V by (split; [apply Rmult_le_pos; lra|apply Rmult_le_compat_l; lra]).
  assert (0 <= v * p' <= v * IZR F) as V' by (split; [apply Rmult_le_pos; lra|apply Rmult_le_compat_l; lra]).
  assert (v * (p + IZR F / 131072) <= v * p') as VM by (apply Rmult_le_compat_l; lra).
  replace (v * (p + IZR F / 131072)) with (v * p + v * IZR F / 131072) in VM by field.
  assert (/ 2 <= v * IZR F) as K by nra.
  destruct (rnd_bounds _ (proj1 V)) as ((R1 & R2) & R3). destruct (rnd_bounds _ (proj1 V')) as ((Q1 & Q2) & Q3).
  set (z := rnd (v * p)) in *. set (z' := rnd (v * p')) in *.
  assert (z + v * IZR F / 262144 <= z') as Z1 by lra.
  assert (z' <= 2 * (v * IZR F)) as Z2 by lra.
  pose proof (div_face z) as D. pose proof (div_face z') as D'. set (d := z / IZR F) in *. set (d' := z' / IZR F) in *.
  assert (d + v / 262144 <= d') as D1.
  { apply Rmult_le_reg_l with (IZR F); [lra|]. replace (IZR F * (d + v / 262144)) with (IZR F * d + v * IZR F / 262144) by field.
    rewrite D, D'. lra. }
  assert (d' <= 2 * v) as D2 by (apply Rmult_le_reg_l with (IZR F); [lra|]; rewrite D'; lra).
  assert (0 <= d) as D3 by (unfold d, Rdiv; apply Rmult_le_pos; auto; left; apply Rinv_0_lt_compat; lra).
  destruct (rnd_bounds d D3) as ((S1 & S2) & S3). destruct (rnd_bounds d' ltac:(lra)) as ((T1 & T2) & T3).
  lra.
Qed.
End Axis.
