(** Proofs about tfon properties and graphic encodings. *)

From Verif Require Import Base Str Multi Color Oer Crc Raster Font Tfon Graphic Spec_Font Spec_Tfon
  Proofs_Str Proofs_Color Proofs_Oer Proofs_Font.
From Coq Require Import ZifyBool ZifyNat.
Ltac Zify.zify_post_hook ::= Z.div_mod_to_equations.

Lemma update_at done c rest g :
  update_char (done ++ c :: rest) (length done) g = Val (done ++ g c :: rest).
Proof.
  induction done as [|d r IH]; [reflexivity|]. cbn [app length update_char]. rewrite IH. reflexivity.
Qed.

Lemma update_char_len cs row g : (row < length cs)%nat ->
  exists cs', update_char cs row g = Val cs' /\ length cs' = length cs.
Proof.
  revert row. induction cs as [|c r IH]; intros row H; cbn [length] in H; [lia|].
  destruct row as [|row]; cbn [update_char].
  - eexists. split; [reflexivity|]. reflexivity.
  - destruct (IH row) as (r' & E & L); [lia|]. rewrite E. cbn [bind]. eexists. split; [reflexivity|].
    cbn [length]. lia.
Qed.

Lemma update_char_over cs row g : (length cs <= row)%nat -> update_char cs row g = Panic.
Proof.
  revert row. induction cs as [|c r IH]; intros row H; [reflexivity|]. cbn [length] in H.
  destruct row as [|row]; [lia|]. cbn [update_char]. rewrite IH by lia. reflexivity.
Qed.

Lemma bitmap_some h c : 0 <= c_width c -> 0 <= h -> bitmap_fits h c ->
  bitmap_from_bits h (c_width c) (c_bitmap c) = Some (mkBitmap h (c_width c) (c_bitmap c)).
Proof.
  intros Hw Hh F. unfold bitmap_fits in F. cbv zeta in F. unfold bitmap_from_bits, div_ceil8.
  set (p := c_width c * h) in *. clearbody p.
  destruct (Z.eqb_spec (Z.of_nat (length (c_bitmap c))) ((p + 7) / 8)); [reflexivity|lia].
Qed.

Lemma parse_chars h : 1 <= h -> forall cs nm num chs ls done k h0,
  Forall char_fields cs -> (forall c, In c cs -> used c -> bitmap_fits h c) ->
  (length (used_chars cs) <= k)%nat -> h0 = 0 \/ h0 = h ->
  parse_props (flat_map (char_props h) cs)
    (mkFont num nm h0 chs ls (done ++ repeat char_default k)) (length done)
  = Val (Ok (mkFont num nm (match used_chars cs with [] => h0 | _ => h end) chs ls
               (done ++ used_chars cs ++ repeat char_default (k - length (used_chars cs))))).
Proof.
  intros Hh cs nm num chs ls. induction cs as [|c r IH]; intros done k h0 Hf Hb Hk H0.
  { cbn [flat_map parse_props used_chars length app]. now rewrite Nat.sub_0_r. }
  inversion Hf as [|? ? Hc Hr]; subst. cbn [flat_map]. unfold char_props at 1.
  destruct (Z.eq_dec (c_number c) 0) as [E|E].
  - rewrite E. cbn [Z.ltb Z.compare app]. rewrite used_skip in * by auto. apply IH; auto.
    intros d I. apply Hb. cbn; auto.
  - rewrite used_cons in * by auto. cbn [length] in Hk. destruct k as [|k]; [lia|].
    destruct Hc as (Hn & Hw & _). unfold u16, u8 in *.
    destruct (Z.ltb_spec 0 (c_number c)); [|lia].
    assert (Bc : bitmap_fits h c) by (apply Hb; [left; reflexivity|exact E]); rewrite bitmap_some by (auto; lia).
    cbn [app parse_props f_characters repeat f_number f_name f_height f_char_spacing f_line_spacing].
    rewrite update_at. cbn [bind bm_height bm_width bm_bits f_characters f_number f_name f_height f_char_spacing f_line_spacing].
    replace ((0 <? h0) && negb (h =? h0)) with false by lia.
    rewrite update_at. cbn [bind c_number c_width c_bitmap char_default].
    replace (if 0 <? h0 then h0 else h) with h by (destruct (Z.ltb_spec 0 h0); lia).
    replace (mkChar (c_number c) (c_width c) (c_bitmap c)) with c by now destruct c.
    replace (done ++ c :: repeat char_default k) with ((done ++ [c]) ++ repeat char_default k)
      by now rewrite <- app_assoc.
    replace (S (length done)) with (length (done ++ [c])) by (rewrite app_length; cbn; lia).
    rewrite IH; auto; try lia; try (intros d I; apply Hb; cbn; auto; fail).
    cbn [length Nat.sub]. rewrite <- app_assoc. cbn [app]. now destruct (used_chars r).
Qed.

Lemma take_bytes_all n s : len s <= n -> take_bytes n s = s.
Proof.
  revert n. induction s as [|c r IH]; intros n H; [reflexivity|]. cbn [len] in H.
  cbn [take_bytes]. pose proof (len_nonneg r). destruct (Z.leb_spec (utf8_len c) n); [|lia].
  now rewrite IH by lia.
Qed.

Lemma to_terminator_pad t k : ~ In 0 t -> to_terminator (t ++ repeat 0 k) = t.
Proof.
  induction t as [|c r IH]; intros H.
  - now destruct k.
  - cbn [app to_terminator]. destruct (Z.eqb_spec c 0) as [->|]; [exfalso; apply H; cbn; auto|].
    rewrite IH; [reflexivity|]. intros I. apply H. cbn; auto.
Qed.

Lemma to_terminator_no0 s : ~ In 0 (to_terminator s).
Proof.
  induction s as [|c r IH]; [cbn; tauto|]. cbn [to_terminator]. destruct (Z.eqb_spec c 0); [cbn; tauto|].
  intros [E|I]; auto.
Qed.

Lemma to_terminator_len s : len (to_terminator s) <= len s.
Proof.
  induction s as [|c r IH]; [reflexivity|]. cbn [to_terminator len].
  pose proof (len_nonneg r). pose proof (utf8_len_pos c).
  destruct (Z.eqb_spec c 0); cbn [len]; lia.
Qed.

Lemma fstr64_name s : len s <= 64 -> to_terminator (fstr64 (to_terminator s)) = to_terminator s.
Proof.
  intros H. unfold fstr64. rewrite take_bytes_all by (pose proof (to_terminator_len s); lia).
  apply to_terminator_pad, to_terminator_no0.
Qed.

Lemma tfon_roundtrip C f : font_fields f -> valid_font f -> len (f_name f) <= 64 ->
  (length (used_chars (f_characters f)) <= C)%nat ->
  exists ps nm, tfon_write f = Val (Ok ps)
    /\ to_terminator nm = to_terminator (f_name f)
    /\ tfon_parse C ps
       = Val (Ok (mkFont (f_number f) nm
            (match used_chars (f_characters f) with [] => 0 | _ => f_height f end)
            (f_char_spacing f) (f_line_spacing f)
            (used_chars (f_characters f)
             ++ repeat char_default (C - length (used_chars (f_characters f)))))).
Proof.
  intros Hf V L Hk. unfold tfon_write. rewrite (proj2 (font_validate_ok f Hf) V). cbn [try].
  eexists. exists (fstr64 (to_terminator (f_name f))). split; [reflexivity|]. split; [now apply fstr64_name|].
  unfold tfon_parse, font_default. cbn [app parse_props f_number f_name f_height f_char_spacing f_line_spacing f_characters].
  destruct V as (V1 & V2 & V3 & V4). destruct Hf as (_ & _ & _ & _ & Hc & _).
  apply (parse_chars (f_height f) V2 (f_characters f) _ _ _ _ [] C 0); auto.
Qed.

Lemma parse_props_fits ps : forall f row,
  (row <= length (f_characters f))%nat ->
  FitsSlots (length (f_characters f) - row) ps -> exists r, parse_props ps f row = Val r.
Proof.
  induction ps as [|p ps IH]; intros f row Hr H; [eexists; reflexivity|].
  destruct p; cbn [parse_props FitsSlots] in *; try (apply IH; cbn [f_characters]; auto; fail).
  - destruct H as [H1 H2]. destruct (update_char_len (f_characters f) row
      (fun c => mkChar cp (c_width c) (c_bitmap c))) as (cs & E & Lc); [lia|].
    rewrite E. cbn [bind]. apply IH; cbn [f_characters]; rewrite Lc; auto.
  - destruct ((0 <? f_height f) && negb (bm_height b =? f_height f)); [eexists; reflexivity|].
    destruct H as [H1 H2]. destruct (update_char_len (f_characters f) row
      (fun c => mkChar (c_number c) (bm_width b) (bm_bits b))) as (cs & E & Lc); [lia|].
    rewrite E. cbn [bind]. apply IH; cbn [f_characters]; rewrite Lc; [lia|].
    replace (length (f_characters f) - S row)%nat with (length (f_characters f) - row - 1)%nat by lia. auto.
Qed.

Lemma tfon_parse_fits C ps : FitsSlots C ps -> exists r, tfon_parse C ps = Val r.
Proof.
  intros H. unfold tfon_parse. apply parse_props_fits; cbn [font_default f_characters]; [lia|].
  rewrite repeat_length, Nat.sub_0_r. exact H.
Qed.

(** With all bitmaps of one height, too many slots always panic. *)
Lemma parse_props_over h ps : 0 < h -> forall f row,
  (row <= length (f_characters f))%nat -> f_height f = 0 \/ f_height f = h ->
  (forall b, In (PBitmap b) ps -> bm_height b = h) ->
  ~ FitsSlots (length (f_characters f) - row) ps -> parse_props ps f row = Panic.
Proof.
  intros Hh. induction ps as [|p ps IH]; intros f row Hr Hf Hb H; [exfalso; apply H; exact I|].
  assert (Hb' : forall b, In (PBitmap b) ps -> bm_height b = h) by (intros; apply Hb; cbn; auto).
  destruct p; cbn [parse_props FitsSlots] in *; try (apply IH; cbn [f_characters f_height]; auto; fail).
  - destruct (Nat.eq_dec (length (f_characters f)) row) as [E|E].
    { rewrite update_char_over by lia. reflexivity. }
    destruct (update_char_len (f_characters f) row
      (fun c => mkChar cp (c_width c) (c_bitmap c))) as (cs & Eu & Lc); [lia|].
    rewrite Eu. cbn [bind]. apply IH; cbn [f_characters f_height]; rewrite ?Lc; auto.
    intros F. apply H. split; [lia|auto].
  - rewrite (Hb b) by (cbn; auto). replace ((0 <? f_height f) && negb (h =? f_height f)) with false by lia.
    replace (if 0 <? f_height f then f_height f else h) with h by (destruct (Z.ltb_spec 0 (f_height f)); lia).
    destruct (Nat.eq_dec (length (f_characters f)) row) as [E|E].
    { rewrite update_char_over by lia. reflexivity. }
    destruct (update_char_len (f_characters f) row
      (fun c => mkChar (c_number c) (bm_width b) (bm_bits b))) as (cs & Eu & Lc); [lia|].
    rewrite Eu. cbn [bind]. apply IH; cbn [f_characters f_height]; rewrite ?Lc; auto; [lia|].
    replace (length (f_characters f) - S row)%nat with (length (f_characters f) - row - 1)%nat by lia.
    intros F. apply H. split; [lia|auto].
Qed.

Lemma tfon_parse_over C h ps : 0 < h -> (forall b, In (PBitmap b) ps -> bm_height b = h) ->
  ~ FitsSlots C ps -> tfon_parse C ps = Panic.
Proof.
  intros Hh Hb H. unfold tfon_parse. apply (parse_props_over h); cbn [font_default f_characters f_height]; auto; [lia|].
  rewrite repeat_length, Nat.sub_0_r. exact H.
Qed.

(** ** Bytes of the encodings *)

Lemma as_u8_u8 v : u8 (as_u8 v).
Proof. unfold u8, as_u8. apply Z.mod_pos_bound. lia. Qed.

Ltac bytes := repeat (apply Forall_cons; [try apply as_u8_u8; auto|]); try apply Forall_nil.

Lemma Forall_u8_prefix n : Forall u8 (length_prefix n).
Proof.
  pose proof as_u8_u8 as A. unfold length_prefix, oer_u8, oer_u16, oer_u24, oer_u32.
  repeat match goal with |- context [if ?b then _ else _] => destruct b end;
    bytes; try (cbv; intuition discriminate).
Qed.

Lemma Forall_u8_uint v : Forall u8 (oer_uint v).
Proof.
  pose proof as_u8_u8 as A. unfold oer_uint, oer_u8, oer_u16, oer_u24, oer_u32.
  repeat match goal with |- context [if ?b then _ else _] => destruct b end;
    apply Forall_app; (split; [apply Forall_u8_prefix|]); bytes.
Qed.

Lemma char_oer_u8 c : char_fields c -> Forall u8 (char_oer c).
Proof.
  intros (Hn & Hw & Hb & Hl). unfold char_oer. destruct (0 <? c_number c); [|constructor].
  unfold oer_u16, oer_u8, octet_string. rewrite !Forall_app. splits.
  - bytes.
  - bytes.
  - apply Forall_u8_prefix.
  - auto.
Qed.

Lemma font_oer_u8 f : font_fields f -> Forall u8 (font_oer f).
Proof.
  intros (H1 & H2 & H3 & H4 & Hc & Hl). unfold font_oer, oer_u8. rewrite !Forall_app. splits;
    try (bytes; fail).
  - apply Forall_u8_uint.
  - induction Hc as [|c r H Hr IH]; [constructor|]. cbn [flat_map]. apply Forall_app.
    split; [now apply char_oer_u8|]. apply IH. cbn [length] in Hl. lia.
Qed.

Lemma graphic_oer_u8 g : graphic_fields g -> Forall u8 (graphic_oer g).
Proof.
  intros (H1 & H2 & H3 & H4 & H5). unfold graphic_oer, oer_u8, oer_u16, octet_str.
  assert (Z0 : u8 0) by (unfold u8; lia). assert (Z1 : u8 1) by (unfold u8; lia).
  rewrite !Forall_app. splits; auto;
    try (bytes; fail).
  - destruct (g_type g); bytes; cbv; intuition discriminate.
  - destruct (g_transparent g); bytes.
  - destruct (g_transparent g) as [[c|r g' b]|]; cbn in H4; rewrite ?Forall_app; splits; bytes; intuition.
Qed.

Lemma version_burst l m p a b a' b' q : Forall u8 l -> Forall u8 m ->
  l = p ++ a :: b :: q -> m = p ++ a' :: b' :: q -> l <> m ->
  from_be (crc16 l) <> from_be (crc16 m).
Proof.
  intros Hl Hm El Em N E. apply from_be_inj in E; try (now apply crc16_u16). subst l m.
  assert (Hm' := Hm). rewrite Forall_app in Hm'. destruct Hm' as [_ Hm'].
  inversion Hm' as [|? ? Ha Hm2]; subst. inversion Hm2 as [|? ? Hb Hm3]; subst.
  apply crc16_burst in E; auto. destruct E as [-> ->]. congruence.
Qed.

Lemma app_inj_len {A} (a b c d : list A) : length a = length c -> a ++ b = c ++ d -> a = c /\ b = d.
Proof.
  revert c. induction a as [|x a IH]; intros [|y c] L E; try discriminate; [auto|].
  inversion L. inversion E; subst. destruct (IH c H0 H2) as [-> ->]. auto.
Qed.

Lemma graphic_oer_inj g h : graphic_fields g -> graphic_fields h ->
  color_kind_ok g -> color_kind_ok h -> graphic_oer g = graphic_oer h ->
  g_number g = g_number h /\ g_height g = g_height h /\ g_width g = g_width h
  /\ g_type g = g_type h /\ g_transparent g = g_transparent h /\ g_bitmap g = g_bitmap h.
Proof.
  intros (G1 & G2 & G3 & G4 & G5) (H1 & H2 & H3 & H4 & H5) Kg Kh E.
  unfold graphic_oer, oer_u8, octet_str, oer_u16 in E. cbn [app] in E.
  injection E as En Eh1 Eh0 Ew1 Ew0 Et Ef E.
  assert (X : forall c d, u16 c -> u16 d -> as_u8 (Z.shiftr c 8) = as_u8 (Z.shiftr d 8) ->
                as_u8 c = as_u8 d -> c = d).
  { intros c d Hc Hd Q1 Q2. rewrite <- (be_u16 c Hc), <- (be_u16 d Hd). unfold oer_u16. now rewrite Q1, Q2. }
  assert (T : g_type g = g_type h).
  { destruct (g_type g), (g_type h); try reflexivity; cbv in Et; discriminate. }
  unfold color_kind_ok in *. rewrite <- T in Kh.
  destruct (g_transparent g) as [[c|r1 r2 r3]|], (g_transparent h) as [[d|s1 s2 s3]|]; cbn [app] in E;
    try discriminate; try (destruct (g_type g); contradiction); injection E as E; subst; splits; auto.
Qed.

Lemma graphic_layout g : graphic_fields g -> GraphicLayout g (graphic_oer g).
Proof.
  intros (G1 & G2 & G3 & G4 & G5). unfold GraphicLayout, graphic_oer, oer_u8, octet_str.
  pose proof (be_u16 _ G2) as B1. pose proof (be_u16 _ G3) as B2. unfold oer_u16 in *.
  cbn [be fold_left] in B1, B2.
  assert (U : forall v, u8 (as_u8 v)) by (intros v; unfold u8, as_u8; pose proof (Z.mod_pos_bound v 256); lia).
  do 5 eexists. exists (match g_transparent g with Some _ => 1 | None => 0 end).
  exists (match g_transparent g with Some (Legacy n) => n | Some (Rgb r _ _) => r | None => 0 end).
  exists (match g_transparent g with Some (Rgb _ v _) => v | _ => 0 end).
  exists (match g_transparent g with Some (Rgb _ _ b) => b | _ => 0 end).
  split.
  { destruct (g_transparent g) as [[n|r v b]|]; reflexivity. }
  splits; try apply U.
  - change (be [as_u8 (Z.shiftr (g_height g) 8); as_u8 (g_height g)] = g_height g) in B1. unfold be in B1. cbn [fold_left] in B1. lia.
  - unfold be in B2. cbn [fold_left] in B2. lia.
  - destruct (g_type g); reflexivity.
  - destruct (g_transparent g) as [[n|r v b]|]; auto.
Qed.
