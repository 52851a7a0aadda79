(** Proofs about the encoding of fonts and its checksum. *)

From Verif Require Import Base Str Multi Color Oer Crc Raster Font Graphic Spec_Font Proofs_Str.
From Coq Require Import ZifyBool ZifyNat.
Ltac Zify.zify_post_hook ::= Z.div_mod_to_equations.

(** ** OER *)

Lemma dec_bytes_app a r : dec_bytes (length a) (a ++ r) = Some (a, r).
Proof.
  unfold dec_bytes. rewrite app_length.
  destruct (Nat.leb_spec (length a) (length a + length r)) as [_|H]; [|lia].
  rewrite firstn_app, Nat.sub_diag, firstn_all, firstn_O, app_nil_r.
  rewrite skipn_app, Nat.sub_diag, skipn_all. reflexivity.
Qed.

Lemma dec_bytes_Z n a r : n = Z.of_nat (length a) -> dec_bytes (Z.to_nat n) (a ++ r) = Some (a, r).
Proof. intros ->. rewrite Nat2Z.id. apply dec_bytes_app. Qed.

Lemma be_u8 v : u8 v -> be [as_u8 v] = v.
Proof. unfold u8, be, as_u8. cbn [fold_left]. lia. Qed.
Lemma be_u16 v : u16 v -> be (oer_u16 v) = v.
Proof.
  unfold u16, be, oer_u16, as_u8. cbn [fold_left]. rewrite Z.shiftr_div_pow2 by lia.
  change (2 ^ 8) with 256. lia.
Qed.
Lemma be_u24 v : 0 <= v < 16777216 -> be (oer_u24 v) = v.
Proof.
  unfold be, oer_u24, as_u8. cbn [fold_left]. rewrite !Z.shiftr_div_pow2 by lia.
  change (2 ^ 8) with 256. change (2 ^ 16) with 65536. lia.
Qed.
Lemma be_u32 v : u32 v -> be (oer_u32 v) = v.
Proof.
  unfold u32, be, oer_u32, as_u8. cbn [fold_left]. rewrite !Z.shiftr_div_pow2 by lia.
  change (2 ^ 8) with 256. change (2 ^ 16) with 65536. change (2 ^ 24) with 16777216. lia.
Qed.

Lemma dec_length_ok n r : u32 n -> dec_length (length_prefix n ++ r) = Some (n, r).
Proof.
  unfold u32. intros H. unfold length_prefix.
  destruct (Z.leb_spec n 127).
  { cbn [app dec_length]. unfold as_u8. rewrite Z.mod_small by lia.
    destruct (Z.ltb_spec n 128); [reflexivity|lia]. }
  assert (L : forall k d (ds : list Z), 128 <= k -> k - 128 = Z.of_nat (length ds) -> be ds = d ->
                dec_length ((k :: ds) ++ r) = Some (d, r)).
  { intros k d ds Hk Hl Hd. cbn [app dec_length].
    destruct (Z.ltb_spec k 128); [lia|]. rewrite dec_bytes_Z by lia. now rewrite Hd. }
  destruct (Z.leb_spec n 255);
    [|destruct (Z.leb_spec n 65535); [|destruct (Z.leb_spec n 16777215)]]; apply L;
    try (cbv; discriminate); try reflexivity.
  - apply be_u8. unfold u8; lia.
  - rewrite Z.mod_small by lia. apply be_u16. unfold u16; lia.
  - apply be_u24. lia.
  - apply be_u32. unfold u32; lia.
Qed.

Lemma dec_octets_ok o r : Z.of_nat (length o) < 4294967296 ->
  dec_octets (octet_string o ++ r) = Some (o, r).
Proof.
  intros H. unfold dec_octets, octet_string. rewrite <- app_assoc, Z.mod_small by lia.
  rewrite dec_length_ok by (unfold u32; lia). now apply dec_bytes_Z.
Qed.

Lemma dec_uint_ok v r : u32 v -> dec_uint (oer_uint v ++ r) = Some (v, r).
Proof.
  unfold u32. intros H.
  assert (L : forall k (ds : list Z), u32 k -> k = Z.of_nat (length ds) -> be ds = v ->
                dec_uint ((length_prefix k ++ ds) ++ r) = Some (v, r)).
  { intros k ds Hk Hl Hd. unfold dec_uint, dec_octets. rewrite <- app_assoc, dec_length_ok by auto.
    rewrite dec_bytes_Z by auto. now rewrite Hd. }
  unfold oer_uint.
  destruct (Z.leb_spec v 255);
    [|destruct (Z.leb_spec v 65535); [|destruct (Z.leb_spec v 16777215)]];
    (apply L; [unfold u32; lia|reflexivity|]).
  - apply be_u8. unfold u8; lia.
  - rewrite Z.mod_small by lia. apply be_u16. unfold u16; lia.
  - apply be_u24. lia.
  - apply be_u32. unfold u32; lia.
Qed.

Lemma prefix_free {V} (enc : V -> list Z) (dec : list Z -> option (V * list Z)) (P : V -> Prop) :
  (forall v r, P v -> dec (enc v ++ r) = Some (v, r)) ->
  forall v w r s, P v -> P w -> enc v ++ r = enc w ++ s -> v = w /\ r = s.
Proof.
  intros D v w r s Hv Hw E. pose proof (D v r Hv) as H1. rewrite E, D in H1 by auto.
  inversion H1. auto.
Qed.

(** ** Fonts *)

Lemma used_filter cs : Forall char_fields cs ->
  filter (fun c => 0 <? c_number c) cs = used_chars cs.
Proof.
  induction cs as [|c r IH]; intros H; [reflexivity|]. inv H. destruct H2 as [H2 _].
  cbn [filter used_chars]. rewrite IH by auto. destruct (c_number c) eqn:E; [reflexivity..|].
  unfold u16 in H2. lia.
Qed.

Lemma used_cons c cs : c_number c <> 0 -> used_chars (c :: cs) = c :: used_chars cs.
Proof. intros H. cbn [used_chars]. destruct (c_number c); congruence. Qed.
Lemma used_skip c cs : c_number c = 0 -> used_chars (c :: cs) = used_chars cs.
Proof. intros H. cbn [used_chars]. now rewrite H. Qed.

Lemma used_In c cs : In c (used_chars cs) <-> In c cs /\ used c.
Proof.
  unfold used. induction cs as [|d r IH]; [cbn; tauto|].
  destruct (Z.eq_dec (c_number d) 0) as [E|E]; [rewrite used_skip|rewrite used_cons]; auto;
    cbn [In]; rewrite IH; intuition congruence.
Qed.

Lemma used_length cs : (length (used_chars cs) <= length cs)%nat.
Proof.
  induction cs as [|d r IH]; [auto|].
  destruct (Z.eq_dec (c_number d) 0) as [E|E]; [rewrite used_skip|rewrite used_cons]; auto; cbn [length]; lia.
Qed.

Lemma used_fields cs : Forall char_fields cs -> Forall char_fields (used_chars cs).
Proof. rewrite !Forall_forall. intros H c Hc. apply used_In in Hc. now apply H. Qed.

Lemma flat_char_oer cs : Forall char_fields cs ->
  flat_map char_oer cs
  = flat_map (fun c => oer_u16 (c_number c) ++ oer_u8 (c_width c) ++ octet_string (c_bitmap c))
      (used_chars cs).
Proof.
  induction cs as [|c r IH]; intros H; [reflexivity|]. inv H. destruct H2 as [H2 _].
  cbn [flat_map used_chars]. rewrite IH by auto. unfold char_oer at 1.
  destruct (c_number c) eqn:E; [reflexivity| |unfold u16 in H2; lia].
  cbn [flat_map]. rewrite E. reflexivity.
Qed.

Lemma dec_char_ok c r : char_fields c ->
  dec_char ((oer_u16 (c_number c) ++ oer_u8 (c_width c) ++ octet_string (c_bitmap c)) ++ r)
  = Some (c, r).
Proof.
  intros [H1 [_ [_ H3]]]. unfold oer_u16, oer_u8. cbn [app dec_char].
  rewrite dec_octets_ok by lia. pose proof (be_u16 _ H1) as E. unfold oer_u16 in E. rewrite E.
  now destruct c.
Qed.

Lemma dec_chars_ok cs r : Forall char_fields cs ->
  dec_chars (length cs)
    (flat_map (fun c => oer_u16 (c_number c) ++ oer_u8 (c_width c) ++ octet_string (c_bitmap c)) cs
     ++ r) = Some (cs, r).
Proof.
  induction cs as [|c cs IH]; intros H; [reflexivity|]. inv H.
  cbn [length dec_chars flat_map]. rewrite <- app_assoc, dec_char_ok, IH by auto. reflexivity.
Qed.

Lemma dec_font_ok f r : font_fields f ->
  dec_font (font_oer f ++ r)
  = Some (f_number f, f_height f, f_char_spacing f, f_line_spacing f,
          used_chars (f_characters f), r).
Proof.
  intros (H1 & H2 & H3 & H4 & Hc & Hl). unfold font_oer, oer_u8. cbn [app dec_font].
  rewrite flat_char_oer, used_filter by auto.
  assert (L : Z.of_nat (length (used_chars (f_characters f))) < 4294967296).
  { pose proof (used_length (f_characters f)). lia. }
  rewrite <- app_assoc, Z.mod_small by lia. rewrite dec_uint_ok by (unfold u32; lia).
  rewrite Nat2Z.id, dec_chars_ok by now apply used_fields. reflexivity.
Qed.

Lemma font_oer_inj f g : font_fields f -> font_fields g -> font_oer f = font_oer g ->
  f_number f = f_number g /\ f_height f = f_height g /\ f_char_spacing f = f_char_spacing g
  /\ f_line_spacing f = f_line_spacing g
  /\ used_chars (f_characters f) = used_chars (f_characters g).
Proof.
  intros Hf Hg E. pose proof (dec_font_ok f [] Hf) as D. rewrite E, dec_font_ok in D by auto.
  inversion D. auto.
Qed.

Lemma font_oer_same f g : font_fields f -> font_fields g ->
  f_number f = f_number g -> f_height f = f_height g -> f_char_spacing f = f_char_spacing g ->
  f_line_spacing f = f_line_spacing g ->
  used_chars (f_characters f) = used_chars (f_characters g) -> font_oer f = font_oer g.
Proof.
  intros (_ & _ & _ & _ & Hf & _) (_ & _ & _ & _ & Hg & _) E1 E2 E3 E4 E5. unfold font_oer.
  rewrite !flat_char_oer, !used_filter by auto. now rewrite E1, E2, E3, E4, E5.
Qed.

(** ** CRC *)

Lemma bits_u16 r : u16 r <-> 0 <= r /\ forall i, 16 <= i -> Z.testbit r i = false.
Proof.
  unfold u16. split.
  - intros H. split; [lia|]. intros i Hi. destruct (Z.eq_dec r 0) as [->|]; [apply Z.bits_0|].
    apply Z.bits_above_log2; [lia|]. assert (Z.log2 r < 16) by (apply Z.log2_lt_pow2; lia). lia.
  - intros [H0 H]. split; [auto|]. destruct (Z_lt_ge_dec r 65536) as [|G]; [auto|exfalso].
    assert (L : 16 <= Z.log2 r) by (apply Z.log2_le_pow2; lia).
    specialize (H _ L). rewrite Z.bit_log2 in H by lia. discriminate.
Qed.

Lemma lxor_u16 a b : u16 a -> u16 b -> u16 (Z.lxor a b).
Proof.
  rewrite !bits_u16. intros [A1 A2] [B1 B2]. split; [apply Z.lxor_nonneg; lia|].
  intros i Hi. rewrite Z.lxor_spec, A2, B2 by auto. reflexivity.
Qed.

Lemma shiftr_u16 a : u16 a -> u16 (Z.shiftr a 1).
Proof. unfold u16. rewrite Z.shiftr_div_pow2 by lia. change (2 ^ 1) with 2. lia. Qed.

Lemma crc_bit_u16 r : u16 r -> u16 (crc_bit r).
Proof.
  intros H. unfold crc_bit. destruct (Z.odd r); [apply lxor_u16|]; try now apply shiftr_u16.
  unfold u16; lia.
Qed.

Lemma crc_bit_lxor a b : crc_bit (Z.lxor a b) = Z.lxor (crc_bit a) (crc_bit b).
Proof.
  unfold crc_bit. rewrite <- !Z.bit0_odd, Z.lxor_spec, Z.shiftr_lxor.
  destruct (Z.testbit a 0), (Z.testbit b 0); cbn [xorb]; apply Z.bits_inj'; intros n Hn;
    rewrite ?Z.lxor_spec; destruct (Z.testbit (Z.shiftr a 1) n), (Z.testbit (Z.shiftr b 1) n), (Z.testbit 33800 n);
    reflexivity.
Qed.

Lemma crc_bit_0 r : u16 r -> crc_bit r = 0 -> r = 0.
Proof.
  intros H E. unfold crc_bit in E. destruct (Z.odd r) eqn:O.
  - exfalso. assert (B : Z.testbit (Z.lxor (Z.shiftr r 1) 33800) 15 = false) by now rewrite E, Z.bits_0.
    rewrite Z.lxor_spec, Z.shiftr_spec in B by lia. apply bits_u16 in H. destruct H as [_ H].
    rewrite H in B by lia. discriminate.
  - rewrite Z.shiftr_div_pow2 in E by lia. change (2 ^ 1) with 2 in E. unfold u16 in H.
    pose proof (Zodd_mod r) as Q. rewrite O in Q. unfold Zeq_bool in Q. pose proof (Z.mod_pos_bound r 2). 
    rewrite <- Z.negb_even in O. apply Bool.negb_false_iff in O. apply Z.even_spec in O. destruct O as [k O]. lia.
Qed.

Definition crc8 (r : Z) : Z :=
  crc_bit (crc_bit (crc_bit (crc_bit (crc_bit (crc_bit (crc_bit (crc_bit r))))))).

Lemma crc_byte_8 r b : crc_byte r b = crc8 (Z.lxor r b).
Proof. reflexivity. Qed.

Lemma crc8_u16 r : u16 r -> u16 (crc8 r).
Proof. intros. unfold crc8. now repeat apply crc_bit_u16. Qed.
Lemma crc8_lxor a b : crc8 (Z.lxor a b) = Z.lxor (crc8 a) (crc8 b).
Proof. unfold crc8. now rewrite !crc_bit_lxor. Qed.
Lemma crc8_0 r : u16 r -> crc8 r = 0 -> r = 0.
Proof. intros H E. unfold crc8 in E. repeat (apply crc_bit_0 in E; [|now repeat apply crc_bit_u16]). auto. Qed.

Lemma lxor_0_eq a b : Z.lxor a b = 0 -> a = b.
Proof. apply Z.lxor_eq. Qed.

Lemma crc8_inj a b : u16 a -> u16 b -> crc8 a = crc8 b -> a = b.
Proof.
  intros Ha Hb E. apply lxor_0_eq. apply crc8_0; [now apply lxor_u16|].
  rewrite crc8_lxor, E. apply Z.lxor_nilpotent.
Qed.

Lemma u8_u16 b : u8 b -> u16 b.
Proof. unfold u8, u16. lia. Qed.
Global Hint Resolve u8_u16 : core.

Lemma crc_byte_u16 r b : u16 r -> u8 b -> u16 (crc_byte r b).
Proof. intros. rewrite crc_byte_8. apply crc8_u16,  lxor_u16; auto. Qed.

Lemma lxor_cancel_r a b c : Z.lxor a c = Z.lxor b c -> a = b.
Proof.
  intros E. apply (f_equal (fun x => Z.lxor x c)) in E.
  now rewrite !Z.lxor_assoc, Z.lxor_nilpotent, !Z.lxor_0_r in E.
Qed.

Lemma crc_byte_inj r s b : u16 r -> u16 s -> u8 b -> crc_byte r b = crc_byte s b -> r = s.
Proof.
  intros Hr Hs Hb E. rewrite !crc_byte_8 in E. apply crc8_inj in E; try (apply lxor_u16; auto).
  now apply lxor_cancel_r in E.
Qed.

Lemma crc_fold_u16 l r : u16 r -> Forall u8 l -> u16 (fold_left crc_byte l r).
Proof.
  revert r; induction l as [|b l IH]; intros r Hr H; [auto|]. inv H. cbn [fold_left].
  apply IH; auto. now apply crc_byte_u16.
Qed.

Lemma crc_fold_inj l r s : u16 r -> u16 s -> Forall u8 l ->
  fold_left crc_byte l r = fold_left crc_byte l s -> r = s.
Proof.
  revert r s; induction l as [|b l IH]; intros r s Hr Hs H E; [auto|]. inv H. cbn [fold_left] in E.
  apply IH in E; auto using crc_byte_u16. now apply crc_byte_inj in E.
Qed.

(** No byte difference disappears from the high half after one byte. *)
Lemma crc8_low : forallb (fun d => (d =? 0) || (256 <=? crc8 d)) (map Z.of_nat (seq 0 256)) = true.
Proof. vm_compute. reflexivity. Qed.

Lemma crc8_byte d : u8 d -> crc8 d < 256 -> d = 0.
Proof.
  intros H L. pose proof crc8_low as F. rewrite forallb_forall in F.
  specialize (F d). rewrite in_map_iff in F. unfold u8 in H.
  assert (I : exists x, Z.of_nat x = d /\ In x (seq 0 256)).
  { exists (Z.to_nat d). rewrite in_seq. lia. }
  specialize (F I). lia.
Qed.

Lemma lxor_u8 a b : u8 a -> u8 b -> u8 (Z.lxor a b).
Proof.
  assert (B : forall r, u8 r <-> 0 <= r /\ Z.shiftr r 8 = 0).
  { intros r. unfold u8. rewrite Z.shiftr_div_pow2 by lia. change (2 ^ 8) with 256. lia. }
  rewrite !B. intros [A1 A2] [B1 B2]. split; [apply Z.lxor_nonneg; lia|].
  now rewrite Z.shiftr_lxor, A2, B2.
Qed.

Lemma crc_two r a b a' b' : u16 r -> u8 a -> u8 b -> u8 a' -> u8 b' ->
  crc_byte (crc_byte r a) b = crc_byte (crc_byte r a') b' -> a = a' /\ b = b'.
Proof.
  intros Hr Ha Hb Ha' Hb' E.
  rewrite !crc_byte_8 in E.
  assert (U : forall x y, u16 x -> u8 y -> u16 (Z.lxor x y)) by (intros; apply lxor_u16; auto).
  apply crc8_inj in E; auto using crc8_u16.
  assert (X : Z.lxor (crc8 (Z.lxor r a)) (crc8 (Z.lxor r a')) = Z.lxor b b').
  { apply Z.bits_inj'. intros n Hn. apply (f_equal (fun x => Z.testbit x n)) in E.
    rewrite !Z.lxor_spec in *. 
    destruct (Z.testbit (crc8 (Z.lxor r a)) n), (Z.testbit (crc8 (Z.lxor r a')) n), (Z.testbit b n), (Z.testbit b' n);
      cbn in *; congruence. }
  rewrite <- crc8_lxor in X.
  assert (Y : Z.lxor (Z.lxor r a) (Z.lxor r a') = Z.lxor a a').
  { apply Z.bits_inj'. intros n Hn. rewrite !Z.lxor_spec.
    destruct (Z.testbit r n), (Z.testbit a n), (Z.testbit a' n); reflexivity. }
  rewrite Y in X. assert (D : Z.lxor a a' = 0).
  { apply crc8_byte; [now apply lxor_u8|]. rewrite X. apply lxor_u8; auto. }
  rewrite D in X. split; [now apply Z.lxor_eq|]. replace (crc8 0) with 0 in X by reflexivity. symmetry in X.
  now apply Z.lxor_eq.
Qed.

Lemma from_be_inj a b : u16 a -> u16 b -> from_be a = from_be b -> a = b.
Proof. unfold u16, from_be. lia. Qed.

Lemma crc16_u16 l : Forall u8 l -> u16 (crc16 l).
Proof. intros H. apply lxor_u16; [apply crc_fold_u16; auto|]; unfold u16; lia. Qed.

Lemma crc16_eq l : crc16 l = Z.lxor (fold_left crc_byte l 65535) 65535.
Proof. reflexivity. Qed.

(** Bursts inside two consecutive bytes change the checksum. *)
Lemma fold2 (f : Z -> Z -> Z) q r a b : fold_left f (a :: b :: q) r = fold_left f q (f (f r a) b).
Proof. reflexivity. Qed.

Lemma crc16_burst p a b a' b' q : Forall u8 (p ++ a :: b :: q) -> u8 a' -> u8 b' ->
  crc16 (p ++ a :: b :: q) = crc16 (p ++ a' :: b' :: q) -> a = a' /\ b = b'.
Proof.
  intros H Ha' Hb' E. rewrite Forall_app in H. destruct H as [Hp H]. inversion H as [|? ? Ha Hq]; subst.
  inversion Hq as [|? ? Hb Hq']; subst.
  rewrite !crc16_eq in E. apply lxor_cancel_r in E. rewrite !fold_left_app, !fold2 in E.
  assert (R : u16 (fold_left crc_byte p 65535)) by (apply crc_fold_u16; [unfold u16; lia|auto]).
  remember (fold_left crc_byte p 65535) as r0. clear Heqr0.
  apply crc_fold_inj in E; auto using crc_byte_u16. now apply crc_two in E.
Qed.
