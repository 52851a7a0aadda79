(** Lemmas on the string library of [Str]. *)

From Coq Require Import String.
From Verif Require Import Base Str Multi Spec_Multi.

Ltac inv H := inversion H; clear H; subst.
Ltac splits := repeat match goal with |- _ /\ _ => split end.
Ltac brk := repeat match goal with
  | H : _ /\ _ |- _ => destruct H
  | H : exists _, _ |- _ => destruct H
  end.

Lemma utf8_len_pos c : 1 <= utf8_len c <= 4.
Proof. unfold utf8_len. destruct (c <? 128), (c <? 2048), (c <? 65536); lia. Qed.

Lemma utf8_len_ascii c : c < 128 -> utf8_len c = 1.
Proof. unfold utf8_len. destruct (Z.ltb_spec c 128); lia. Qed.

Lemma utf8_len_wide c : 128 <= c -> 2 <= utf8_len c.
Proof.
  unfold utf8_len. destruct (Z.ltb_spec c 128), (c <? 2048), (c <? 65536); lia.
Qed.

Lemma len_nonneg s : 0 <= len s.
Proof. induction s; cbn [len]; [lia|]. pose proof (utf8_len_pos a). lia. Qed.

Lemma len_app a b : len (a ++ b) = len a + len b.
Proof. induction a; cbn [len app]; lia. Qed.

Lemma len_pos_nonempty s : s <> [] -> 0 < len s.
Proof.
  destruct s; [congruence|]. intros _. cbn [len].
  pose proof (utf8_len_pos z). pose proof (len_nonneg s). lia.
Qed.

Lemma len_zero s : len s = 0 -> s = [].
Proof.
  intros H. destruct s; auto. assert (Hn : z :: s <> []) by congruence.
  apply len_pos_nonempty in Hn. lia.
Qed.

Lemma str_eqb_iff a b : str_eqb a b = true <-> a = b.
Proof.
  revert b. induction a; destruct b; cbn; split; try congruence; try discriminate.
  - intros H. apply andb_true_iff in H as [H1 H2].
    apply Z.eqb_eq in H1. apply IHa in H2. congruence.
  - intros H. inv H. rewrite Z.eqb_refl. cbn. now apply IHa.
Qed.

Lemma str_split_app a b : str_split (a ++ b) (len a) = Some (a, b).
Proof.
  induction a as [|c a IH]; cbn [len app].
  - destruct b; reflexivity.
  - pose proof (utf8_len_pos c). pose proof (len_nonneg a). cbn [str_split].
    destruct (Z.eqb_spec (utf8_len c + len a) 0); [lia|].
    destruct (Z.ltb_spec (utf8_len c + len a) (utf8_len c)); [lia|].
    replace (utf8_len c + len a - utf8_len c) with (len a) by lia.
    now rewrite IH.
Qed.

Lemma str_split_Some s i a b : str_split s i = Some (a, b) -> s = a ++ b /\ i = len a.
Proof.
  revert i a b. induction s as [|c s IH]; intros i a b; cbn [str_split].
  - destruct (Z.eqb_spec i 0); intros H; inv H. split; auto.
  - destruct (Z.eqb_spec i 0); [intros H; inv H; auto|].
    destruct (Z.ltb_spec i (utf8_len c)); [discriminate|].
    destruct (str_split s (i - utf8_len c)) as [[a' b']|] eqn:E; [|discriminate].
    intros H0. inv H0. apply IH in E as [-> E]. cbn [app len]. split; auto. lia.
Qed.

Lemma split_at_app a b : split_at (a ++ b) (len a) = Val (a, b).
Proof. unfold split_at. now rewrite str_split_app. Qed.

Lemma split_at_app' a b n : n = len a -> split_at (a ++ b) n = Val (a, b).
Proof. intros ->. apply split_at_app. Qed.

Lemma slice_from_app a b n : n = len a -> slice_from (a ++ b) n = Val b.
Proof. intros. unfold slice_from. now rewrite split_at_app'. Qed.

Lemma slice_to_app a b n : n = len a -> slice_to (a ++ b) n = Val a.
Proof. intros. unfold slice_to. now rewrite split_at_app'. Qed.

Lemma slice_app a b c i j : i = len a -> j = len a + len b -> slice (a ++ b ++ c) i j = Val b.
Proof.
  intros -> ->. unfold slice. rewrite slice_from_app by auto. cbn [bind].
  apply slice_to_app. lia.
Qed.

(** Slicing after ASCII characters. *)
Lemma slice_from_1 c r : c < 128 -> slice_from (c :: r) 1 = Val r.
Proof. intros. apply (slice_from_app [c]). cbn [len]. now rewrite utf8_len_ascii. Qed.

Lemma slice_from_2 c d r : c < 128 -> d < 128 -> slice_from (c :: d :: r) 2 = Val r.
Proof. intros. apply (slice_from_app [c; d]). cbn [len]. now rewrite !utf8_len_ascii. Qed.

Lemma slice_from_3 c d e r :
  c < 128 -> d < 128 -> e < 128 -> slice_from (c :: d :: e :: r) 3 = Val r.
Proof. intros. apply (slice_from_app [c; d; e]). cbn [len]. now rewrite !utf8_len_ascii. Qed.

Lemma slice_to_1 c r : c < 128 -> slice_to (c :: r) 1 = Val [c].
Proof. intros. apply (slice_to_app [c]). cbn [len]. now rewrite utf8_len_ascii. Qed.

Lemma slice_from_1_wide c r : 128 <= c -> slice_from (c :: r) 1 = Panic.
Proof.
  intros. unfold slice_from, split_at. cbn [str_split].
  destruct (Z.eqb_spec 1 0); [lia|]. pose proof (utf8_len_wide c H).
  destruct (Z.ltb_spec 1 (utf8_len c)); [reflexivity|lia].
Qed.

Lemma slice_to_1_wide c r : 128 <= c -> slice_to (c :: r) 1 = Panic.
Proof.
  intros. unfold slice_to, split_at. cbn [str_split].
  destruct (Z.eqb_spec 1 0); [lia|]. pose proof (utf8_len_wide c H).
  destruct (Z.ltb_spec 1 (utf8_len c)); [reflexivity|lia].
Qed.

(** ** [break_at], [splitn] *)

Definition free (p : Z -> bool) (s : str) : Prop := Forall (fun c => p c = false) s.

Lemma break_at_Some p s a b :
  break_at p s = Some (a, b) -> exists c, s = a ++ c :: b /\ p c = true /\ free p a.
Proof.
  revert a b. induction s as [|c s IH]; intros a b; cbn [break_at]; [discriminate|].
  destruct (p c) eqn:E; intros H.
  - inv H. exists c. repeat split; auto. constructor.
  - destruct (break_at p s) as [[a' b']|]; [|discriminate]. inv H.
    destruct (IH _ _ eq_refl) as (d & -> & Hd & Hf).
    exists d. repeat split; auto. now constructor.
Qed.

Lemma break_at_None p s : break_at p s = None <-> free p s.
Proof.
  unfold free. induction s as [|c s IH]; cbn [break_at].
  - split; constructor.
  - destruct (p c) eqn:E.
    + split; [discriminate|]. intros H. inv H. congruence.
    + destruct (break_at p s) as [[a b]|].
      * split; [discriminate|]. intros H. inv H. apply IH in H3. discriminate.
      * split; auto. intros _. constructor; auto. now apply IH.
Qed.

Lemma break_at_app p a c b : free p a -> p c = true -> break_at p (a ++ c :: b) = Some (a, b).
Proof.
  unfold free. induction a as [|x a IH]; intros Hf Hc; cbn [break_at app].
  - now rewrite Hc.
  - inv Hf. rewrite H1. now rewrite IH.
Qed.

Lemma break_at_free p s : free p s -> break_at p s = None.
Proof. apply break_at_None. Qed.

Lemma splitn_1 p s : splitn 1 p s = [s].
Proof. reflexivity. Qed.

Lemma splitn_S p n s :
  splitn (S (S n)) p s =
  match break_at p s with Some (a, b) => a :: splitn (S n) p b | None => [s] end.
Proof. reflexivity. Qed.

Lemma splitn_free p n s : free p s -> splitn (S n) p s = [s].
Proof. intros. destruct n; [reflexivity|]. rewrite splitn_S. now rewrite break_at_free. Qed.

Lemma splitn_app p n a c b :
  free p a -> p c = true -> splitn (S (S n)) p (a ++ c :: b) = a :: splitn (S n) p b.
Proof. intros. rewrite splitn_S. now rewrite break_at_app. Qed.

(** ** Numerals *)

Lemma digit_val_iff radix c d :
  radix <= 36 -> digit_val radix c = Some d <-> DigitVal radix c d.
Proof.
  intros Hr. unfold digit_val, DigitVal.
  destruct (Z.leb_spec 48 c), (Z.leb_spec c 57), (Z.leb_spec 97 c), (Z.leb_spec c 122),
    (Z.leb_spec 65 c), (Z.leb_spec c 90); cbn [andb];
    try (destruct (Z.ltb_spec (c - 48) radix)); try (destruct (Z.ltb_spec (c - 87) radix));
    try (destruct (Z.ltb_spec (c - 55) radix));
    split; intros HH; try discriminate; try (inv HH; lia); try (f_equal; lia); try lia.
Qed.

Lemma DigitVal_nonneg radix c d : DigitVal radix c d -> 0 <= d < radix.
Proof. unfold DigitVal. lia. Qed.

Lemma DigitVal_fun radix c d d' : DigitVal radix c d -> DigitVal radix c d' -> d = d'.
Proof. unfold DigitVal. lia. Qed.

(** Left-to-right reading of digits, without a bound. *)
Inductive Reads (radix : Z) : Z -> str -> Z -> Prop :=
| Rd_nil a : Reads radix a [] a
| Rd_cons a c d s n : DigitVal radix c d -> Reads radix (a * radix + d) s n ->
    Reads radix a (c :: s) n.

Lemma Reads_snoc radix a s n c d :
  Reads radix a s n -> DigitVal radix c d -> Reads radix a (s ++ [c]) (n * radix + d).
Proof.
  intros H Hd. induction H; cbn.
  - econstructor; [eassumption|]. constructor.
  - econstructor; eauto.
Qed.

Lemma Digits_Reads radix s n : Digits radix s n -> Reads radix 0 s n.
Proof.
  induction 1.
  - econstructor; [eassumption|]. replace (0 * radix + d) with d by lia. constructor.
  - now apply Reads_snoc.
Qed.

Lemma Digits_nonempty radix s n : Digits radix s n -> s <> [].
Proof. destruct 1; [congruence|]. destruct s; discriminate. Qed.

Lemma Reads_Digits radix a s n :
  Reads radix a s n -> forall p, Digits radix p a -> Digits radix (p ++ s) n.
Proof.
  induction 1; intros p Hp.
  - now rewrite app_nil_r.
  - change (c :: s) with ([c] ++ s). rewrite app_assoc. apply IHReads. now constructor.
Qed.

Lemma Reads0_Digits radix s n : s <> [] -> Reads radix 0 s n -> Digits radix s n.
Proof.
  intros Hs H. inv H; [congruence|].
  apply (Reads_Digits _ _ _ _ H1 [c]). replace (0 * radix + d) with d by lia. now constructor.
Qed.

Lemma Reads_mono radix a s n : 1 <= radix -> 0 <= a -> Reads radix a s n -> a <= n.
Proof.
  intros Hr Ha H. induction H; [lia|].
  pose proof (DigitVal_nonneg _ _ _ H). assert (a * radix + d <= n) by (apply IHReads; nia). nia.
Qed.

Lemma parse_digits_iff radix bound acc s n :
  1 <= radix <= 36 -> 0 <= acc < bound ->
  parse_digits radix bound acc s = Some n <-> Reads radix acc s n /\ n < bound.
Proof.
  intros Hr. revert acc. induction s as [|c s IH]; intros acc Ha; cbn [parse_digits].
  - split; intros H.
    + inv H. split; [constructor|lia].
    + destruct H as [H _]. now inv H.
  - split.
    + destruct (digit_val radix c) as [d|] eqn:E; [|discriminate].
      apply digit_val_iff in E; [|lia]. pose proof (DigitVal_nonneg _ _ _ E).
      destruct (Z.ltb_spec (acc * radix) bound); [|discriminate].
      destruct (Z.ltb_spec (acc * radix + d) bound); [|discriminate].
      intros H2. apply IH in H2; [|nia]. destruct H2. split; [econstructor; eauto|auto].
    + intros [H Hn]. inversion H as [|a' c' d s' n' H2 H5]; subst.
      pose proof (DigitVal_nonneg _ _ _ H2).
      pose proof H2 as E. apply digit_val_iff in E; [|lia]. rewrite E.
      apply Reads_mono in H5 as Hm; [|lia|nia].
      destruct (Z.ltb_spec (acc * radix) bound); [|lia].
      destruct (Z.ltb_spec (acc * radix + d) bound); [|lia].
      apply IH; [nia|auto].
Qed.

Lemma Digits_head radix s n : Digits radix s n ->
  exists c r d, s = c :: r /\ DigitVal radix c d.
Proof.
  induction 1.
  - now exists c, [], d.
  - destruct IHDigits as (c' & r & d' & -> & Hd). now exists c', (r ++ [c]), d'.
Qed.

Lemma parse_radix_iff radix bound s n :
  1 <= radix <= 36 -> 0 < bound ->
  parse_radix radix bound s = Some n <-> Num radix bound s n.
Proof.
  intros Hr Hb. unfold parse_radix, Num. destruct s as [|c s].
  - split; [discriminate|]. intros [[H|(s' & H & _)] _]; [|discriminate].
    apply Digits_nonempty in H. congruence.
  - destruct (Z.eqb_spec c 43) as [->|Hc].
    + destruct s as [|c' s].
      * split; [discriminate|]. intros [[H|(s' & H & H')] _].
        -- apply Digits_head in H as (c & r & d & H & Hd). inv H. unfold DigitVal in Hd. lia.
        -- inv H. apply Digits_nonempty in H'. congruence.
      * rewrite parse_digits_iff by lia. split.
        -- intros [H Hn]. split; auto. right. exists (c' :: s). split; auto.
           apply Reads0_Digits; auto. congruence.
        -- intros [[H|(s' & H & H')] Hn].
           ++ apply Digits_head in H as (c & r & d & H & Hd). inv H. unfold DigitVal in Hd. lia.
           ++ inv H. split; auto. now apply Digits_Reads.
    + rewrite parse_digits_iff by lia. split.
      * intros [H Hn]. split; auto. left. apply Reads0_Digits; auto. congruence.
      * intros [[H|(s' & H & H')] Hn].
        -- split; auto. now apply Digits_Reads.
        -- inv H. congruence.
Qed.

Lemma parse_u8_iff s n : parse_u8 s = Some n <-> Num8 s n.
Proof. apply parse_radix_iff; lia. Qed.
Lemma parse_u16_iff s n : parse_u16 s = Some n <-> Num16 s n.
Proof. apply parse_radix_iff; lia. Qed.
Lemma parse_u32_iff s n : parse_u32 s = Some n <-> Num32 s n.
Proof. apply parse_radix_iff; lia. Qed.
Lemma parse_hex16_iff s n : parse_hex16 s = Some n <-> Hex16 s n.
Proof. apply parse_radix_iff; lia. Qed.

(** Characters of numerals. *)
Definition alnum (radix c : Z) : Prop := c = 43 \/ exists d, DigitVal radix c d.

Lemma Digits_chars radix s n : Digits radix s n -> Forall (alnum radix) s.
Proof.
  induction 1.
  - constructor; [|constructor]. right. eauto.
  - apply Forall_app. split; auto. constructor; [|constructor]. right. eauto.
Qed.

Lemma Num_chars radix bound s n : Num radix bound s n -> Forall (alnum radix) s.
Proof.
  intros [[H|(s' & -> & H)] _]; apply Digits_chars in H; auto.
  constructor; auto. now left.
Qed.

Lemma Num_nonempty radix bound s n : Num radix bound s n -> s <> [].
Proof. intros [[H|(s' & -> & H)] _]; [|congruence]. now apply Digits_nonempty in H. Qed.

Lemma Digits_nonneg radix s n : 0 <= radix -> Digits radix s n -> 0 <= n.
Proof.
  intros Hr. induction 1.
  - apply DigitVal_nonneg in H. lia.
  - apply DigitVal_nonneg in H0. nia.
Qed.

Lemma Num_range radix bound s n : 0 <= radix -> Num radix bound s n -> 0 <= n < bound.
Proof.
  intros Hr [[H|(s' & -> & H)] Hb]; apply Digits_nonneg in H; auto.
Qed.

Lemma Num8_range s n : Num8 s n -> 0 <= n < 256.
Proof. apply Num_range; lia. Qed.
Lemma Num16_range s n : Num16 s n -> 0 <= n < 65536.
Proof. apply Num_range; lia. Qed.
Lemma Num32_range s n : Num32 s n -> 0 <= n < 4294967296.
Proof. apply Num_range; lia. Qed.
Lemma Hex16_range s n : Hex16 s n -> 0 <= n < 65536.
Proof. apply Num_range; lia. Qed.

Lemma alnum_free (p : Z -> bool) radix s :
  Forall (alnum radix) s -> (forall c, p c = true -> ~ alnum radix c) -> free p s.
Proof.
  intros H Hp. unfold free. eapply Forall_impl; [|eassumption].
  intros c Hc. destruct (p c) eqn:E; auto. now apply Hp in E.
Qed.

Lemma Num10_no_comma bound s n : Num 10 bound s n -> free is_comma s.
Proof.
  intros H. eapply alnum_free; [eapply Num_chars; eauto|].
  unfold is_comma, alnum, DigitVal. intros c Hc. apply Z.eqb_eq in Hc. intros [|[d Hd]]; lia.
Qed.

Lemma Num16_no_comma bound s n : Num 16 bound s n -> free is_comma s.
Proof.
  intros H. eapply alnum_free; [eapply Num_chars; eauto|].
  unfold is_comma, alnum, DigitVal. intros c Hc. apply Z.eqb_eq in Hc. intros [|[d Hd]]; lia.
Qed.

Lemma Num10_no_o bound s n : Num 10 bound s n -> free is_o s.
Proof.
  intros H. eapply alnum_free; [eapply Num_chars; eauto|].
  unfold is_o, alnum, DigitVal. intros c Hc. apply orb_true_iff in Hc.
  intros [|[d Hd]]; destruct Hc as [Hc|Hc]; apply Z.eqb_eq in Hc; lia.
Qed.

Lemma Num10_no_t bound s n : Num 10 bound s n -> free is_t s.
Proof.
  intros H. eapply alnum_free; [eapply Num_chars; eauto|].
  unfold is_t, alnum, DigitVal. intros c Hc. apply orb_true_iff in Hc.
  intros [|[d Hd]]; destruct Hc as [Hc|Hc]; apply Z.eqb_eq in Hc; lia.
Qed.

Lemma alnum_ascii radix c : radix <= 36 -> alnum radix c -> c < 128.
Proof. unfold alnum, DigitVal. intros Hr [->|[d H]]; lia. Qed.

Lemma len_ascii s : Forall (fun c => c < 128) s -> len s = Z.of_nat (List.length s).
Proof.
  induction 1; [reflexivity|]. cbn [len List.length]. rewrite utf8_len_ascii by auto. lia.
Qed.

Lemma Num_len radix bound s n : radix <= 36 -> Num radix bound s n -> len s = Z.of_nat (List.length s).
Proof.
  intros Hr H. apply len_ascii. apply Num_chars in H.
  eapply Forall_impl; [|eassumption]. intros. now apply (alnum_ascii radix).
Qed.

Lemma is_empty_iff (s : str) : is_empty s = true <-> s = [].
Proof. destruct s; cbn; split; congruence. Qed.
