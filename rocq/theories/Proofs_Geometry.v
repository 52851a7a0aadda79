(** [pixel_x] and [pixel_y] compute the rounded positions of [Proofs_Axis]. *)

From Coq Require Import Reals Lra ZifyBool.
From Flocq Require Import Raux BinarySingleNaN.
From Verif Require Import Base Config Sign Geometry Proofs_F32 Proofs_Str Proofs_Axis.
Open Scope R_scope.
Ltac Zify.zify_post_hook ::= Z.div_mod_to_equations.

Local Notation mode := Base.mode.

(** ** One axis in floating point *)

Definition ax_gaps (n cw : Z) : Z := if ((1 <? cw) && (cw <? n))%Z then ((n - 1) / cw)%Z else 0%Z.

Definition ax_pitch (F n pt g : Z) : f32 := fmin (f_of pt) (fdiv (f_of F) (f_of (n + g))).
Definition ax_extra (F n pt g : Z) : f32 :=
  fmax (fsub (f_of F) (fmul (f_of (n + g)) (ax_pitch F n pt g))) (f_of 0).
Definition ax_border (F n pt hb g : Z) : f32 :=
  if (0 <? g)%Z then fmin (f_of hb) (fdiv (ax_extra F n pt g) (f_of 2)) else fdiv (ax_extra F n pt g) (f_of 2).
Definition ax_excess (F n pt hb g : Z) : f32 :=
  fmax (fsub (fsub (f_of F) (fmul (ax_border F n pt hb g) (f_of 2))) (fmul (ax_pitch F n pt g) (f_of n))) (f_of 0).
Definition ax_gap (F n pt hb g : Z) : f32 :=
  if (0 <? g)%Z then fdiv (ax_excess F n pt hb g) (f_of g) else f_of 0.
Definition ax_offset (F n pt hb g cw x : Z) : f32 :=
  if (1 <? cw)%Z then fmul (f_of (x / cw)) (ax_gap F n pt hb g) else f_of 0.
Definition ax_pixel (F n pt hb g cw x w : Z) : f32 :=
  fdiv (fmul (f_of w) (fadd (fadd (ax_border F n pt hb g) (ax_offset F n pt hb g cw x))
                            (fmul (fadd (f_of x) f_half) (ax_pitch F n pt g)))) (f_of F).

Lemma chk16_small md v : (0 <= v < 65536)%Z -> chk16 md v = Val v.
Proof. intros H. unfold chk16, chk. replace (v <? 65536)%Z with true by lia. now replace (0 <=? v)%Z with true by lia. Qed.

Lemma pixel_x_axis md d x w :
  (0 < pixel_width d + gap_char_count d < 65536)%Z ->
  pixel_x md d x w =
    Val (ax_pixel (sign_width (d_sign_cfg d)) (pixel_width d) (pitch_horiz d) (horizontal_border (d_sign_cfg d))
                  (gap_char_count d) (char_width d) x w).
Proof.
  intros H. unfold pixel_x, char_offset_mm, gap_char_mm, excess_char_mm, pixel_width_mm, border_horiz_mm, pitch_horiz_mm, face_width_mm.
  rewrite chk16_small by lia. cbn [bind]. replace (0 <? pixel_width d + gap_char_count d)%Z with true by lia.
  unfold ax_pixel, ax_offset, ax_gap, ax_excess, ax_border, ax_extra, ax_pitch.
  destruct (1 <? char_width d)%Z, (0 <? gap_char_count d)%Z; reflexivity.
Qed.

Lemma pixel_y_axis md d y hh :
  (0 < pixel_height d + gap_line_count d < 65536)%Z ->
  pixel_y md d y hh =
    Val (ax_pixel (sign_height (d_sign_cfg d)) (pixel_height d) (pitch_vert d) (vertical_border (d_sign_cfg d))
                  (gap_line_count d) (char_height d) y hh).
Proof.
  intros H. unfold pixel_y, line_offset_mm, gap_line_mm, excess_line_mm, pixel_height_mm, border_vert_mm, pitch_vert_mm, face_height_mm.
  rewrite chk16_small by lia. cbn [bind]. replace (0 <? pixel_height d + gap_line_count d)%Z with true by lia.
  unfold ax_pixel, ax_offset, ax_gap, ax_excess, ax_border, ax_extra, ax_pitch.
  destruct (1 <? char_height d)%Z, (0 <? gap_line_count d)%Z; reflexivity.
Qed.

(** ** Its value *)

Definition ax_char (cw x : Z) : Z := if (1 <? cw)%Z then (x / cw)%Z else 0%Z.

Lemma ax_char_range n cw x : (0 <= x < n)%Z -> (0 <= ax_char cw x <= ax_gaps n cw)%Z.
Proof.
  intros H. unfold ax_char, ax_gaps. destruct (Z.ltb_spec 1 cw); [|cbn [andb]; lia].
  destruct (Z.ltb_spec cw n); cbn [andb].
  - split; [apply Z.div_pos; lia|]. apply Z.div_le_mono; lia.
  - rewrite Z.div_small by lia. lia.
Qed.

Lemma ax_char_mono cw x y : (0 <= x <= y)%Z -> (0 <= ax_char cw x <= ax_char cw y)%Z.
Proof.
  intros H. unfold ax_char. destruct (Z.ltb_spec 1 cw); [|lia].
  split; [apply Z.div_pos; lia|]. apply Z.div_le_mono; lia.
Qed.

Lemma ax_gaps_range n cw : (1 <= n)%Z -> (0 <= ax_gaps n cw <= n)%Z.
Proof.
  intros H. unfold ax_gaps. destruct (Z.ltb_spec 1 cw); destruct (Z.ltb_spec cw n); cbn [andb]; try lia.
  split; [apply Z.div_pos; lia|]. apply Z.div_le_upper_bound; nia.
Qed.

Section Value.
Variables F n g pt hb : Z.
Hypothesis HF : (1 <= F <= 65535)%Z.
Hypothesis Hn : (1 <= n)%Z.
Hypothesis Hg : (0 <= g)%Z.
Hypothesis Hp : (n + g <= 65535)%Z.
Hypothesis Ht : (1 <= pt <= 255)%Z.
Hypothesis Hb : (0 <= hb <= 65535)%Z.

Notation P := (rx_pitch F n g pt).
Notation E := (rx_extra F n g pt).
Notation B := (rx_border F n g pt hb).
Notation W := (rx_inner F n g pt hb).
Notation X := (rx_excess F n g pt hb).
Notation G := (rx_gap F n g pt hb).

Ltac small := unfold Small; apply Rabs_le; lra.

Lemma pitch_holds : Holds (ax_pitch F n pt g) P.
Proof.
  destruct (quot_range F n g HF Hn Hg Hp) as (q & Q0 & Q1 & Q2 & Q3 & Q4).
  pose proof (face_range F HF).
  apply fmin_holds; [apply f_int; lia|]. apply fdiv_holds; [apply f_int; lia..|lra|]. rewrite Q0. small.
Qed.

Lemma extra_holds : Holds (ax_extra F n pt g) E.
Proof.
  pose proof (face_range F HF). destruct (pitch_range F n g pt HF Hn Hg Hp Ht) as (P1 & P2 & P3).
  destruct (pixels_le F n g pt HF Hn Hg Hp Ht) as (N1 & N2).
  destruct (rnd_bounds (IZR (n + g) * P) ltac:(lra)) as ((R1 & R2) & R3).
  apply fmax_holds; [|apply (f_int 0); lia]. apply fsub_holds; [apply f_int; lia| |small].
  apply fmul_holds; [apply f_int; lia|apply pitch_holds|small].
Qed.

Lemma border_holds : Holds (ax_border F n pt hb g) B.
Proof.
  pose proof (face_range F HF). destruct (extra_range F n g pt HF Hn Hg Hp Ht) as (E1 & E2).
  destruct (pixels_le F n g pt HF Hn Hg Hp Ht) as (N1 & N2).
  assert (Rmax 0 (IZR F - IZR (n + g) * P) <= IZR F) by (apply Rmax_lub; lra).
  assert (Holds (fdiv (ax_extra F n pt g) (f_of 2)) (rnd (E / 2))) as D.
  { apply fdiv_holds; [apply extra_holds|apply (f_int 2); lia|lra|small]. }
  unfold ax_border, rx_border. destruct (0 <? g)%Z; auto. apply fmin_holds; auto. apply f_int. lia.
Qed.

Lemma border_le : 0 <= B <= IZR F.
Proof.
  pose proof (face_range F HF). destruct (border_range F n g pt hb HF Hn Hg Hp Ht Hb) as (E1 & E2).
  destruct (pixels_le F n g pt HF Hn Hg Hp Ht) as (N1 & N2).
  assert (Rmax 0 (IZR F - IZR (n + g) * P) <= IZR F) by (apply Rmax_lub; lra). lra.
Qed.

Lemma excess_holds : Holds (ax_excess F n pt hb g) X.
Proof.
  pose proof (face_range F HF). pose proof border_le as B1.
  destruct (inner_range F n g pt hb HF Hn Hg Hp Ht Hb) as (I1 & I2).
  destruct (pixels_le F n g pt HF Hn Hg Hp Ht) as (N1 & N2). destruct (pitch_range F n g pt HF Hn Hg Hp Ht) as (P1 & P2 & P3).
  destruct (rnd_bounds (P * IZR n) ltac:(lra)) as ((R1 & R2) & R3).
  destruct (rnd_bounds (B * 2) ltac:(lra)) as ((S1 & S2) & S3).
  apply fmax_holds; [|apply (f_int 0); lia]. apply fsub_holds; [|apply fmul_holds; [apply pitch_holds|apply f_int; lia|small]|small].
  apply fsub_holds; [apply f_int; lia| |small]. apply fmul_holds; [apply border_holds|apply (f_int 2); lia|small].
Qed.

Lemma gap_holds : Holds (ax_gap F n pt hb g) G.
Proof.
  pose proof (face_range F HF). pose proof (excess_le F n g pt hb HF Hn Hg Hp Ht Hb) as X1.
  destruct (excess_range F n g pt hb HF Hn Hg Hp Ht Hb) as (X2 & _).
  unfold ax_gap, rx_gap. destruct (Z.ltb_spec 0 g) as [L|L]; [|apply (f_int 0); lia].
  assert (1 <= IZR g) as G1 by (apply IZR_le; lia).
  apply fdiv_holds; [apply excess_holds|apply f_int; lia|lra|]. unfold Small.
  assert (0 <= X / IZR g) as Q. { unfold Rdiv. apply Rmult_le_pos; [lra|]. left. apply Rinv_0_lt_compat. lra. }
  assert (IZR g * (X / IZR g) = X) as Q1 by (field; lra).
  apply Rabs_le. split; [lra|]. nra.
Qed.

Lemma pixel_holds cw x w : g = ax_gaps n cw -> (0 <= x < n)%Z -> (0 <= w < 4294967296)%Z ->
  Holds (ax_pixel F n pt hb g cw x w) (rx_scaled F n g pt hb x (ax_char cw x) w).
Proof.
  intros Eg Hx Hw. pose proof (face_range F HF) as Fr. pose proof border_le as Br.
  pose proof (ax_char_range n cw x Hx) as Cr. rewrite <- Eg in Cr.
  pose proof (offset_range F n g pt hb HF Hn Hg Hp Ht Hb _ Cr) as (O1 & O2).
  pose proof (excess_le F n g pt hb HF Hn Hg Hp Ht Hb) as X1.
  destruct (gap_range F n g pt hb HF Hn Hg Hp Ht Hb) as (G1 & G2).
  assert (Holds (ax_offset F n pt hb g cw x) (rx_offset F n g pt hb (ax_char cw x))) as HO.
  { unfold ax_offset, rx_offset, ax_char in *. destruct (Z.ltb_spec 1 cw) as [L|L].
    - apply fmul_holds; [apply f_int; lia|apply gap_holds|].
      assert (0 <= IZR (x / cw) * G <= IZR g * G) as C.
      { split; [apply Rmult_le_pos; auto; apply IZR_le; lia|]. apply Rmult_le_compat_r; auto. apply IZR_le. lia. }
      small.
    - rewrite Rmult_0_l, rnd_0. apply (f_int 0). lia. }
  assert (Holds (fadd (f_of x) f_half) (IZR x + / 2)) as HX.
  { rewrite <- (rnd_half x) by lia. apply fadd_holds; [apply f_int; lia|apply half_holds|].
    assert (0 <= IZR x <= 65535) by (split; apply IZR_le; lia). small. }
  pose proof (centre_range F n g pt HF Hn Hg Hp Ht x Hx) as (C1 & C2).
  destruct (sum_range F n g pt hb HF Hn Hg Hp Ht Hb x (ax_char cw x) Hx Cr) as ((A1 & A2) & (B1 & B2) & C).
  pose proof (pos_range F n g pt hb HF Hn Hg Hp Ht Hb x (ax_char cw x) Hx Cr) as (P1 & P2).
  destruct (pitch_range F n g pt HF Hn Hg Hp Ht) as (Q1 & Q2 & Q3).
  destruct (pixels_le F n g pt HF Hn Hg Hp Ht) as (N1 & N2).
  destruct (rnd_bounds _ A1) as ((R1 & R2) & R3).
  assert (0 <= IZR w <= 4294967296) as Wr by (split; apply IZR_le; lia).
  destruct (rnd_bounds (IZR w) ltac:(lra)) as ((S1 & S2) & S3).
  assert (0 <= rnd (IZR w) * rx_pos F n g pt hb x (ax_char cw x) <= 4294968000 * 65535) as Z1.
  { split; [apply Rmult_le_pos; lra|]. apply Rmult_le_compat; lra. }
  destruct (rnd_bounds _ (proj1 Z1)) as ((T1 & T2) & T3).
  apply fdiv_holds; [|apply f_int; lia|lra|].
  - apply fmul_holds; [apply f_of_holds; small| |small].
    apply fadd_holds; [apply fadd_holds; [apply border_holds|apply HO|small]| |small].
    apply fmul_holds; [apply HX|apply pitch_holds|small].
  - set (z := rnd (rnd (IZR w) * rx_pos F n g pt hb x (ax_char cw x))) in *.
    pose proof (div_face F HF z) as D.
    assert (0 <= z / IZR F) as D1 by (unfold Rdiv; apply Rmult_le_pos; auto; left; apply Rinv_0_lt_compat; lra).
    assert (1 * (z / IZR F) <= IZR F * (z / IZR F)) as D2 by (apply Rmult_le_compat_r; lra).
    unfold Small. apply Rabs_le. split; lra.
Qed.
End Value.

(** ** Range and order *)

Lemma axis_range F n pt hb cw x w :
  (1 <= F <= 65535)%Z -> (n + ax_gaps n cw <= 65535)%Z -> (1 <= pt <= 255)%Z -> (0 <= hb <= 65535)%Z ->
  (0 <= x < n)%Z -> (0 <= w < 4294967296)%Z ->
  is_finite (ax_pixel F n pt hb (ax_gaps n cw) cw x w) = true /\
  0 <= B2R (ax_pixel F n pt hb (ax_gaps n cw) cw x w) <= IZR w.
Proof.
  intros HF Hp Ht Hb Hx Hw. pose proof (ax_gaps_range n cw ltac:(lia)).
  destruct (pixel_holds F n (ax_gaps n cw) pt hb HF ltac:(lia) ltac:(lia) Hp Ht Hb cw x w eq_refl Hx Hw) as (A & B).
  split; auto. rewrite B. apply scaled_range; auto; try lia. apply ax_char_range; auto.
Qed.

Lemma axis_order F n pt hb cw x y w :
  (1 <= F <= 65535)%Z -> (n + ax_gaps n cw <= 65535)%Z -> (1 <= pt <= 255)%Z -> (0 <= hb <= 65535)%Z ->
  (0 <= x < y)%Z -> (y < n)%Z -> (1 <= w < 4294967296)%Z ->
  B2R (ax_pixel F n pt hb (ax_gaps n cw) cw x w) < B2R (ax_pixel F n pt hb (ax_gaps n cw) cw y w).
Proof.
  intros HF Hp Ht Hb Hx Hy Hw. pose proof (ax_gaps_range n cw ltac:(lia)).
  destruct (pixel_holds F n (ax_gaps n cw) pt hb HF ltac:(lia) ltac:(lia) Hp Ht Hb cw x w eq_refl ltac:(lia) ltac:(lia)) as (_ & A).
  destruct (pixel_holds F n (ax_gaps n cw) pt hb HF ltac:(lia) ltac:(lia) Hp Ht Hb cw y w eq_refl ltac:(lia) ltac:(lia)) as (_ & B).
  rewrite A, B. apply scaled_mono; auto; try lia.
  - apply ax_char_mono. lia.
  - apply ax_char_range. lia.
Qed.
