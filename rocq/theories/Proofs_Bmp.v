(** The BMP writer. *)

From Coq Require Import ZifyBool ZifyNat.
From Verif Require Import Base Raster Color Bmp Spec_Bmp.
Ltac Zify.zify_post_hook ::= Z.div_mod_to_equations.

Lemma low_sum v : 0 <= v < 4294967296 ->
  low8 v + 256 * (low8 (Z.shiftr v 8) + 256 * (low8 (Z.shiftr v 16) + 256 * (low8 (Z.shiftr v 24) + 256 * 0))) = v.
Proof.
  intros H. unfold low8. rewrite !Z.shiftr_div_pow2 by lia.
  change (2 ^ 8) with 256. change (2 ^ 16) with 65536. change (2 ^ 24) with 16777216. lia.
Qed.

Lemma low_u8 v : u8 (low8 v).
Proof. unfold u8, low8. lia. Qed.

Lemma byte_app l l' i : Z.of_nat (length l) <= i -> byte_at (l ++ l') i = byte_at l' (i - Z.of_nat (length l)).
Proof.
  intros H. unfold byte_at. destruct (i <? 0) eqn:A; [lia|]. destruct (i - Z.of_nat (length l) <? 0) eqn:B; [lia|].
  rewrite nth_error_app2 by lia. f_equal. lia.
Qed.

Lemma byte_front l l' i : i < Z.of_nat (length l) -> byte_at (l ++ l') i = byte_at l i.
Proof. intros H. unfold byte_at. destruct (i <? 0) eqn:A; [easy|]. apply nth_error_app1. lia. Qed.

(** Pieces of the same length *)
Lemma flat_len {A} (f : A -> list Z) n l : (forall a, In a l -> length (f a) = n) -> length (flat_map f l) = (length l * n)%nat.
Proof.
  induction l as [|a l IH]; intros H; [easy|]. cbn [flat_map length]. rewrite app_length, IH by (intros; apply H; now right).
  rewrite (H a) by now left. lia.
Qed.

Lemma flat_at {A} (f : A -> list Z) n l : (forall a, In a l -> length (f a) = n) ->
  forall j a k, nth_error l j = Some a -> 0 <= k < Z.of_nat n ->
  byte_at (flat_map f l) (Z.of_nat j * Z.of_nat n + k) = byte_at (f a) k.
Proof.
  induction l as [|b l IH]; intros H j a k E K; [destruct j; discriminate|]. cbn [flat_map].
  assert (Hb : length (f b) = n) by (apply H; now left).
  destruct j as [|j]; cbn [nth_error] in E.
  - injection E as ->. rewrite byte_front by lia. f_equal; lia.
  - rewrite byte_app by lia. rewrite <- (IH (fun a h => H a (or_intror h)) j a k E K). f_equal. lia.
Qed.

Lemma zrange_len n : length (zrange n) = Z.to_nat n.
Proof. unfold zrange. now rewrite map_length, seq_length. Qed.

Lemma nth_seq a n i : (i < n)%nat -> nth_error (seq a n) i = Some (a + i)%nat.
Proof.
  revert a i. induction n as [|n IH]; intros a i H; [lia|]. destruct i as [|i]; cbn; [f_equal; lia|].
  rewrite IH by lia. f_equal. lia.
Qed.

Lemma zrange_at n i : 0 <= i < n -> nth_error (zrange n) (Z.to_nat i) = Some i.
Proof. intros H. unfold zrange. rewrite nth_error_map, nth_seq by lia. cbn. f_equal. lia. Qed.

Lemma zrange_rev n i : 0 <= i < n -> nth_error (rev (zrange n)) (Z.to_nat (n - 1 - i)) = Some i.
Proof.
  intros H. rewrite nth_error_nth' with (d := 0) by (rewrite rev_length, zrange_len; lia).
  rewrite rev_nth by (rewrite zrange_len; lia). rewrite zrange_len.
  f_equal. apply nth_error_nth. rewrite <- (zrange_at n i H). f_equal. lia.
Qed.

(** Rows *)
Definition pad (w : Z) : Z := (4 - 3 * w mod 4) mod 4.

Lemma pad_row w : 3 * w + pad w = row_bytes w.
Proof. unfold pad, row_bytes. lia. Qed.

Lemma row_pixels r y : length (flat_map (fun x => write_pixel (r_pixel r x y)) (zrange (r_width r))) = (Z.to_nat (r_width r) * 3)%nat.
Proof. rewrite (flat_len _ 3), zrange_len; [easy|]. intros a _. unfold write_pixel. now destruct (r_pixel r a y) as [[? ?] ?]. Qed.

Lemma row_len r y : 0 <= r_width r -> length (write_row r (pad (r_width r)) y) = Z.to_nat (row_bytes (r_width r)).
Proof.
  intros H. unfold write_row. rewrite app_length, row_pixels, repeat_length. pose proof (pad_row (r_width r)).
  assert (0 <= pad (r_width r)) by (unfold pad; lia). lia.
Qed.

Lemma row_at r y x k : 0 <= x < r_width r -> 0 <= k < 3 ->
  byte_at (write_row r (pad (r_width r)) y) (3 * x + k) = byte_at (write_pixel (r_pixel r x y)) k.
Proof.
  intros H K. unfold write_row. rewrite byte_front by (rewrite row_pixels; lia).
  rewrite <- (flat_at (fun x => write_pixel (r_pixel r x y)) 3 (zrange (r_width r))) with (j := Z.to_nat x); auto.
  - f_equal. lia.
  - intros a _. unfold write_pixel. now destruct (r_pixel r a y) as [[? ?] ?].
  - now apply zrange_at.
Qed.

Lemma row_pad r y k : 0 <= r_width r -> 3 * r_width r <= k < row_bytes (r_width r) ->
  byte_at (write_row r (pad (r_width r)) y) k = Some 0.
Proof.
  intros H K. pose proof (pad_row (r_width r)). unfold write_row. rewrite byte_app by (rewrite row_pixels; lia).
  unfold byte_at. rewrite row_pixels. destruct (_ <? 0) eqn:A; [lia|].
  rewrite nth_error_nth' with (d := 0) by (rewrite repeat_length; lia). f_equal. now apply nth_repeat.
Qed.

Definition data (r : Raster rgb) : list Z := flat_map (write_row r (pad (r_width r))) (rev (zrange (r_height r))).

Lemma data_len r : Sized (r_width r) (r_height r) -> Z.of_nat (length (data r)) = r_height r * row_bytes (r_width r).
Proof.
  intros [H H']. unfold data. rewrite (flat_len _ (Z.to_nat (row_bytes (r_width r)))) by (intros; apply row_len; lia).
  rewrite rev_length, zrange_len. rewrite Nat2Z.inj_mul, !Z2Nat.id by (unfold row_bytes; lia). reflexivity.
Qed.

Lemma data_at r y k : Sized (r_width r) (r_height r) -> 0 <= y < r_height r -> 0 <= k < row_bytes (r_width r) ->
  byte_at (data r) ((r_height r - 1 - y) * row_bytes (r_width r) + k) = byte_at (write_row r (pad (r_width r)) y) k.
Proof.
  intros [H H'] Y K. unfold data.
  rewrite <- (flat_at (write_row r (pad (r_width r))) (Z.to_nat (row_bytes (r_width r))) (rev (zrange (r_height r)))) with (j := Z.to_nat (r_height r - 1 - y)).
  - f_equal. rewrite !Z2Nat.id by lia. reflexivity.
  - intros a _. apply row_len. lia.
  - now apply zrange_rev.
  - lia.
Qed.

(** The two headers *)
Definition head (n w h : Z) : list Z :=
  [66; 77] ++ write_u32 n ++ write_u32 0 ++ write_u32 54 ++ write_u32 40 ++ write_u32 w ++ write_u32 h
  ++ write_u16 1 ++ write_u16 24 ++ write_u32 0 ++ write_u32 0 ++ write_u32 100 ++ write_u32 100 ++ write_u32 0 ++ write_u32 0.

Lemma chk32_out md v : chk32 md v = Val (v mod 4294967296) \/ (chk32 md v = Panic /\ md = Debug /\ ~ 0 <= v < 4294967296).
Proof.
  unfold chk32, chk. destruct ((0 <=? v) && (v <? 4294967296)) eqn:E.
  - left. f_equal. lia.
  - destruct md; [right|left]; auto. repeat split; lia.
Qed.

Lemma chk32_ok md v : 0 <= v < 4294967296 -> chk32 md v = Val v.
Proof. intros H. unfold chk32, chk. now replace ((0 <=? v) && (v <? 4294967296)) with true by lia. Qed.

Lemma chk32_rel v : chk32 Release v = Val (v mod 4294967296).
Proof. destruct (chk32_out Release v) as [H|(_ & H & _)]; [exact H|discriminate H]. Qed.

Lemma chk32_bad v : 4294967296 <= v -> chk32 Debug v = Panic.
Proof. intros H. unfold chk32, chk. now replace ((0 <=? v) && (v <? 4294967296)) with false by lia. Qed.

Definition Big (w h : Z) : Prop := 4294967296 <= 54 + 3 * (w * h) \/ 4294967296 <= 3 * w.

Lemma write_out md r : Sized (r_width r) (r_height r) ->
  (bmp_write md r = Val (head ((54 + 3 * (r_width r * r_height r)) mod 4294967296) (r_width r) (r_height r) ++ data r)
   /\ (md = Release \/ ~ Big (r_width r) (r_height r)))
  \/ (bmp_write md r = Panic /\ md = Debug /\ Big (r_width r) (r_height r)).
Proof.
  intros [Hw Hh]. unfold bmp_write, write_header, write_pixel_data, Big. cbv zeta.
  assert (Hp : 0 <= r_width r * r_height r) by nia. set (p := r_width r * r_height r) in *. clearbody p.
  assert (E : forall n, ([66; 77] ++ write_u32 n ++ write_u32 0 ++ write_u32 (14 + 40)) ++ write_info_header r ++ data r
     = head n (r_width r) (r_height r) ++ data r) by reflexivity.
  destruct md.
  - destruct (Z_lt_ge_dec (54 + 3 * p) 4294967296) as [A|A]; [destruct (Z_lt_ge_dec (3 * r_width r) 4294967296) as [B|B]|].
    + left. rewrite !chk32_ok by lia. cbn [bind]. rewrite !chk32_ok by lia. cbn [bind]. rewrite !chk32_ok by lia. cbn [bind].
      split; [|right; lia]. change (flat_map (write_row r ((4 - (3 * r_width r) mod 4) mod 4)) (rev (zrange (r_height r)))) with (data r).
      rewrite E. do 3 f_equal. rewrite Z.mod_small by lia. lia.
    + right. rewrite (chk32_bad (3 * r_width r)) by lia. rewrite !chk32_ok by lia. cbn [bind]. rewrite !chk32_ok by lia. cbn [bind].
      rewrite !chk32_ok by lia. split; [reflexivity|split; [reflexivity|right; lia]].
    + right. split; [|split; [reflexivity|left; lia]]. destruct (Z_lt_ge_dec p 4294967296) as [C|C]; [|rewrite (chk32_bad p) by lia; reflexivity].
      rewrite (chk32_ok _ p) by lia. cbn [bind]. destruct (Z_lt_ge_dec (p * 3) 4294967296) as [D|D]; [|rewrite (chk32_bad (p * 3)) by lia; reflexivity].
      rewrite (chk32_ok _ (p * 3)) by lia. cbn [bind]. rewrite chk32_bad by lia. reflexivity.
  - left. split; [|auto]. rewrite !chk32_rel. cbn [bind]. rewrite !chk32_rel. cbn [bind]. rewrite !chk32_rel. cbn [bind].
    replace ((3 * r_width r) mod 4294967296 mod 4) with ((3 * r_width r) mod 4) by lia.
    change (flat_map (write_row r ((4 - (3 * r_width r) mod 4) mod 4)) (rev (zrange (r_height r)))) with (data r).
    rewrite E. do 3 f_equal. lia.
Qed.

Lemma head_u32 n w h : 0 <= n < 4294967296 -> Sized w h -> forall l,
  le_at 2 (head n w h ++ l) 0 = Some 19778 /\ le_at 4 (head n w h ++ l) 2 = Some n
  /\ le_at 4 (head n w h ++ l) 10 = Some 54 /\ le_at 4 (head n w h ++ l) 14 = Some 40
  /\ le_at 4 (head n w h ++ l) 18 = Some w /\ le_at 4 (head n w h ++ l) 22 = Some h
  /\ le_at 2 (head n w h ++ l) 26 = Some 1 /\ le_at 2 (head n w h ++ l) 28 = Some 24
  /\ le_at 4 (head n w h ++ l) 30 = Some 0.
Proof.
  intros Hn [Hw Hh] l. repeat split; try reflexivity.
  - etransitivity; [|apply (f_equal Some (low_sum n Hn))]. reflexivity.
  - etransitivity; [|apply (f_equal Some (low_sum w ltac:(lia)))]. reflexivity.
  - etransitivity; [|apply (f_equal Some (low_sum h ltac:(lia)))]. reflexivity.
Qed.

Lemma head_len n w h : length (head n w h) = 54%nat.
Proof. reflexivity. Qed.

Lemma val_eq {A} (a b : A) : Val a = Val b -> a = b.
Proof. congruence. Qed.

Lemma image md r l : Sized (r_width r) (r_height r) -> bmp_write md r = Val l ->
  Image l (r_width r) (r_height r) (r_pixel r).
Proof.
  intros HS E. destruct (write_out md r HS) as [(E' & _)|(E' & _)]; rewrite E in E'; [|discriminate E'].
  apply val_eq in E'. subst l. set (n := (54 + _) mod 4294967296). assert (Hn : 0 <= n < 4294967296) by (unfold n; lia). clearbody n.
  destruct (head_u32 n _ _ Hn HS (data r)) as (H0 & H1 & H2 & H3 & H4 & H5 & H6 & H7 & H8).
  pose proof HS as [Hw Hh]. pose proof (pad_row (r_width r)) as HP.
  assert (HP' : 0 <= pad (r_width r)) by (unfold pad; lia).
  assert (Q : forall y k, 0 <= y < r_height r -> 0 <= k < row_bytes (r_width r) ->
    byte_at (head n (r_width r) (r_height r) ++ data r) (54 + (r_height r - 1 - y) * row_bytes (r_width r) + k)
    = byte_at (write_row r (pad (r_width r)) y) k).
  { intros y k Y K. assert (0 <= (r_height r - 1 - y) * row_bytes (r_width r)) by (apply Z.mul_nonneg_nonneg; lia).
    rewrite byte_app by (rewrite head_len; lia). rewrite head_len, <- data_at by auto. f_equal. lia. }
  constructor; auto. exists 54. split; [exact H2|]. split; [|split].
  - rewrite app_length, head_len, Nat2Z.inj_add, data_len by auto. lia.
  - intros x y X Y. cbv zeta. destruct (r_pixel r x y) as [[cr cg] cb] eqn:C.
    assert (P : forall k, 0 <= k < 3 -> byte_at (head n (r_width r) (r_height r) ++ data r)
        (54 + (r_height r - 1 - y) * row_bytes (r_width r) + 3 * x + k) = byte_at [cb; cg; cr] k).
    { intros k K. replace [cb; cg; cr] with (write_pixel (r_pixel r x y)) by now rewrite C.
      rewrite <- row_at by auto. rewrite <- Q by lia. f_equal. lia. }
    split; [|split]; [rewrite <- (Z.add_0_r (_ + 3 * x))|..]; rewrite P by lia; reflexivity.
  - intros y k Y K. rewrite <- (row_pad r (r_height r - 1 - y) k) by lia. rewrite <- Q by lia. do 2 f_equal. f_equal. lia.
Qed.

Lemma says md r l : Sized (r_width r) (r_height r) -> bmp_write md r = Val l ->
  SaysSize l ((54 + 3 * (r_width r * r_height r)) mod 4294967296).
Proof.
  intros HS E. destruct (write_out md r HS) as [(E' & _)|(E' & _)]; rewrite E in E'; [|discriminate E'].
  apply val_eq in E'. subst l. set (n := (54 + _) mod 4294967296). assert (Hn : 0 <= n < 4294967296) by (unfold n; lia).
  apply (head_u32 n _ _ Hn HS (data r)).
Qed.

Lemma size_right r l : Sized (r_width r) (r_height r) -> bmp_write Debug r = Val l ->
  (SaysSize l (Z.of_nat (length l)) <-> r_width r mod 4 = 0 \/ r_height r = 0).
Proof.
  intros HS E. pose proof (says _ _ _ HS E) as S1. pose proof HS as [Hw Hh].
  destruct (write_out Debug r HS) as [(E' & B)|(E' & _)]; rewrite E in E'; [|discriminate E'].
  destruct B as [B|B]; [discriminate B|]. apply val_eq in E'.
  assert (L : Z.of_nat (length l) = 54 + r_height r * row_bytes (r_width r))
    by (rewrite E', app_length, head_len, Nat2Z.inj_add, data_len by auto; lia).
  unfold Big in B. assert (0 <= r_width r * r_height r) by nia.
  rewrite Z.mod_small in S1 by lia. pose proof (pad_row (r_width r)) as HP.
  assert (D : r_height r * row_bytes (r_width r) = 3 * (r_width r * r_height r) + r_height r * pad (r_width r)) by (rewrite <- HP; ring).
  assert (0 <= pad (r_width r)) by (unfold pad; lia).
  unfold SaysSize in *. rewrite S1, L, D. split.
  - intros Q. assert (Q' : forall a b : Z, Some a = Some b -> a = b) by congruence. apply Q' in Q. assert (Z : r_height r * pad (r_width r) = 0) by lia. apply Z.mul_eq_0 in Z as [Z|Z]; [auto|].
    left. unfold pad in Z. lia.
  - intros [Q|Q]; f_equal.
    + replace (pad (r_width r)) with 0 by (unfold pad; lia). lia.
    + rewrite Q. lia.
Qed.

Lemma panics md r : Sized (r_width r) (r_height r) ->
  (bmp_write md r = Panic <-> md = Debug /\ Big (r_width r) (r_height r)) /\ bmp_write md r <> Hang.
Proof.
  intros HS. destruct (write_out md r HS) as [(E & B)|(E & M & B)]; rewrite E; split; try easy.
  split; [discriminate|]. intros [-> B']. now destruct B as [B|B].
Qed.

Lemma flat_Forall {A} (P : Z -> Prop) (f : A -> list Z) l : (forall a, In a l -> Forall P (f a)) -> Forall P (flat_map f l).
Proof. induction l as [|a l IH]; intros H; [constructor|]. cbn. apply Forall_app. split; [apply H; now left|apply IH; intros; apply H; now right]. Qed.

Lemma zrange_in n i : In i (zrange n) -> 0 <= i < n.
Proof. unfold zrange. intros (k & <- & K)%in_map_iff. apply in_seq in K. lia. Qed.

Lemma bytes_out md r l : Sized (r_width r) (r_height r) -> Bytes (r_pixel r) (r_width r) (r_height r) ->
  bmp_write md r = Val l -> Forall u8 l.
Proof.
  intros HS HB E. destruct (write_out md r HS) as [(E' & _)|(E' & _)]; rewrite E in E'; [|discriminate E'].
  apply val_eq in E'. subst l. apply Forall_app. split.
  - unfold head, write_u32, write_u16. cbn [app]. repeat (constructor; [try apply low_u8; unfold u8; lia|]). constructor.
  - apply flat_Forall. intros y Y%in_rev%zrange_in. unfold write_row. apply Forall_app. split.
    + apply flat_Forall. intros x X%zrange_in. specialize (HB x y X Y). unfold write_pixel.
      destruct (r_pixel r x y) as [[? ?] ?]. destruct HB as (? & ? & ?). auto.
    + apply Forall_forall. intros z Z%repeat_spec. subst. unfold u8. lia.
Qed.

(** An image has one size and one colour at each place. *)
Lemma image_fun l w h px w' h' px' : Image l w h px -> Image l w' h' px' ->
  w' = w /\ h' = h /\ forall x y, 0 <= x < w -> 0 <= y < h -> px' x y = px x y.
Proof.
  intros [_ _ W H _ _ _ (o & O & _ & P & _)] [_ _ W' H' _ _ _ (o' & O' & _ & P' & _)].
  rewrite W in W'. rewrite H in H'. rewrite O in O'. injection W' as <-. injection H' as <-. injection O' as <-.
  repeat split. intros x y X Y. specialize (P x y X Y). specialize (P' x y X Y). cbv zeta in P, P'.
  destruct (px x y) as [[r g] b], (px' x y) as [[r' g'] b'].
  destruct P as (B & G & R), P' as (B' & G' & R'). rewrite B in B'. rewrite G in G'. rewrite R in R'. congruence.
Qed.
