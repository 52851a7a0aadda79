(** Proofs about fonts. *)

From Verif Require Import Base Str Multi Color Oer Crc Raster Font Spec_Font Proofs_Str Proofs_Color
  Proofs_Oer.
From Coq Require Import ZifyBool ZifyNat.
Ltac Zify.zify_post_hook ::= Z.div_mod_to_equations.

(** ** First duplicates *)

Lemma FirstDup_cons_in n ns : In n ns -> FirstDup (n :: ns) n.
Proof.
  intros H. exists [], ns. splits; auto. intros p m q E. symmetry in E. apply app_eq_nil in E.
  destruct E; discriminate.
Qed.

Lemma FirstDup_cons_out m ns n : ~ In m ns -> (FirstDup (m :: ns) n <-> FirstDup ns n).
Proof.
  intros H. split.
  - intros (pre & post & E & I & F). destruct pre as [|m' pre]; inversion E; subst; [contradiction|].
    exists pre, post. splits; auto. intros p k q E'. apply (F (m' :: p) k q). now rewrite E'.
  - intros (pre & post & E & I & F). exists (m :: pre), post. subst. splits; auto.
    intros [|k' p] k q E'; inversion E'; subst; auto. now apply (F p k q).
Qed.

Lemma FirstDup_nil n : ~ FirstDup [] n.
Proof. intros (pre & post & E & _). destruct pre; discriminate. Qed.

Lemma FirstDup_fun ns n m : FirstDup ns n -> FirstDup ns m -> n = m.
Proof.
  induction ns as [|k ns IH]; intros Hn Hm; [now apply FirstDup_nil in Hn|].
  destruct (in_dec Z.eq_dec k ns) as [I|I].
  - assert (E : forall j, FirstDup (k :: ns) j -> j = k).
    { intros j (pre & post & E & J & F). destruct pre as [|k' pre]; inversion E; subst; [auto|].
      exfalso. apply (F [] k' pre eq_refl). auto. }
    apply E in Hn, Hm. congruence.
  - rewrite FirstDup_cons_out in Hn, Hm by auto. auto.
Qed.

Lemma FirstDup_NoDup ns n : FirstDup ns n -> ~ NoDup ns.
Proof.
  intros (pre & post & -> & I & _) H. apply NoDup_remove_2 in H. apply H. rewrite in_app_iff. auto.
Qed.

Lemma FirstDup_In ns n : FirstDup ns n -> In n ns.
Proof. intros (pre & post & -> & I & _). rewrite in_app_iff. cbn. auto. Qed.

(** ** Validation *)

Lemma char_valid_spec h c : char_fields c -> 0 <= h ->
  (char_is_valid c h = true <-> (used c -> bitmap_fits h c)).
Proof.
  intros (_ & Hw & _) Hh. unfold char_is_valid, used, bitmap_fits, div_ceil8, u8 in *.
  set (p := c_width c * h). clearbody p. lia.
Qed.

Lemma chars_valid_spec h cs : Forall char_fields cs -> 0 <= h ->
  (forallb (fun c => char_is_valid c h) cs = true
   <-> forall c, In c cs -> used c -> bitmap_fits h c).
Proof.
  intros Hc Hh. rewrite forallb_forall. rewrite Forall_forall in Hc.
  split; intros H c I; specialize (H c I); apply (char_valid_spec h c (Hc c I) Hh); auto.
Qed.

Lemma chars_invalid_spec h cs : Forall char_fields cs -> 0 <= h ->
  forallb (fun c => char_is_valid c h) cs = false ->
  exists c, In c cs /\ used c /\ ~ bitmap_fits h c.
Proof.
  intros Hc Hh. induction cs as [|c r IH]; cbn [forallb]; [discriminate|]. inv Hc.
  rewrite andb_false_iff. intros [H|H].
  - exists c. pose proof (char_valid_spec h c H1 Hh) as S. rewrite H in S.
    destruct (Z.eq_dec (c_number c) 0) as [E|E].
    + exfalso. unfold used in S. assert (false = true) by (apply S; congruence). discriminate.
    + splits; cbn; auto. intros B. assert (false = true) by (apply S; auto). discriminate.
  - destruct (IH H2 H) as (d & I & U & B). exists d. cbn. auto.
Qed.

Lemma existsb_numbers n cs : n <> 0 ->
  (existsb (fun d => c_number d =? n) cs = true <-> In n (map c_number (used_chars cs))).
Proof.
  intros Hn. rewrite existsb_exists, in_map_iff. split.
  - intros (d & I & E). exists d. rewrite used_In. unfold used. splits; auto; lia.
  - intros (d & E & I). rewrite used_In in I. exists d. split; [tauto|lia].
Qed.

Lemma validate_numbers_spec cs : Forall char_fields cs ->
  (validate_char_numbers cs = Val (Ok tt) /\ NoDup (map c_number (used_chars cs)))
  \/ exists n, FirstDup (map c_number (used_chars cs)) n
       /\ validate_char_numbers cs
          = (if is_charb n then Val (Err (FDuplicateChar n)) else Panic).
Proof.
  induction cs as [|c r IH]; intros H; [left; split; [reflexivity|constructor]|].
  inv H. specialize (IH H3). destruct H2 as [H2 _]. unfold u16 in H2. cbn [validate_char_numbers].
  destruct (Z.eq_dec (c_number c) 0) as [E|E].
  { rewrite used_skip, E by auto. exact IH. }
  rewrite used_cons by auto. cbn [map].
  destruct (Z.ltb_spec 0 (c_number c)); [|lia]. cbn [andb].
  destruct (existsb (fun d => c_number d =? c_number c) r) eqn:X.
  - rewrite existsb_numbers in X by auto. right. exists (c_number c).
    split; [now apply FirstDup_cons_in|reflexivity].
  - assert (N : ~ In (c_number c) (map c_number (used_chars r))).
    { intros I. rewrite <- existsb_numbers in I by auto. congruence. }
    destruct IH as [[-> IH]|(n & F & ->)].
    + left. split; [reflexivity|now constructor].
    + right. exists n. split; [now apply FirstDup_cons_out|reflexivity].
Qed.

Lemma is_charb_u16 n : u16 n -> (is_charb n = false <-> 55296 <= n <= 57343).
Proof. unfold u16, is_charb. lia. Qed.

(** The four outcomes that depend on the rules in order. *)
Lemma font_validate_cases f : font_fields f ->
  (exists r, font_validate f = Val r /\ FontVerdict f r)
  \/ (font_validate f = Panic
      /\ exists n, FontVerdict f (Err (FDuplicateChar n)) /\ 55296 <= n <= 57343).
Proof.
  intros (H1 & H2 & H3 & H4 & Hc & Hl). unfold font_validate, u8 in *.
  destruct (Z.ltb_spec (f_number f) 1). { left. eexists. split; [reflexivity|]. now apply VNumber. }
  destruct (Z.ltb_spec (f_height f) 1). { left. eexists. split; [reflexivity|]. now apply VHeight. }
  destruct (forallb (fun c => char_is_valid c (f_height f)) (f_characters f)) eqn:B; cbn [negb].
  2:{ apply chars_invalid_spec in B; [|auto|lia]. destruct B as (c & I & U & B).
      left. eexists. split; [reflexivity|]. now apply (VBitmap f c). }
  rewrite chars_valid_spec in B by (auto; lia).
  destruct (validate_numbers_spec _ Hc) as [[-> N]|(n & F & E)].
  - left. eexists. split; [reflexivity|]. apply VOk. now splits.
  - pose proof (FirstDup_In _ _ F) as I. rewrite in_map_iff in I. destruct I as (c & En & I).
    apply used_In in I. destruct I as [I _]. rewrite Forall_forall in Hc. destruct (Hc c I) as [Hn _].
    destruct (is_charb n) eqn:C; rewrite E; cbn [try].
    + left. eexists. split; [reflexivity|]. now apply VDup.
    + right. split; [reflexivity|]. exists n. rewrite is_charb_u16 in C by (subst n; auto).
      split; [now apply VDup|auto].
Qed.

Lemma FontVerdict_fun f r s : FontVerdict f r -> FontVerdict f s -> r = s.
Proof.
  intros Hr Hs. inversion Hr as [N|N1 N|c N1 N2 I U B|n N1 N2 B F|(V1 & V2 & V3 & V4)];
    inversion Hs as [N'|N1' N'|c' N1' N2' I' U' B'|n' N1' N2' B' F'|(V1' & V2' & V3' & V4')]; subst;
    try reflexivity; try lia; try (exfalso; now eauto).
  - now rewrite (FirstDup_fun _ _ _ F F').
  - now apply FirstDup_NoDup in F.
  - now apply FirstDup_NoDup in F'.
Qed.

Lemma font_validate_ok f : font_fields f -> (font_validate f = Val (Ok tt) <-> valid_font f).
Proof.
  intros Hf. destruct (font_validate_cases f Hf) as [(r & E & V)|(E & n & V & _)]; rewrite E; split.
  - intros H. inversion H; subst. now inversion V.
  - intros H. now rewrite (FontVerdict_fun _ _ _ V (VOk _ H)).
  - discriminate.
  - intros H. pose proof (FontVerdict_fun _ _ _ V (VOk _ H)). discriminate.
Qed.

Lemma font_validate_panic f : font_fields f ->
  (font_validate f = Panic
   <-> exists n, FontVerdict f (Err (FDuplicateChar n)) /\ 55296 <= n <= 57343).
Proof.
  intros Hf. destruct (font_validate_cases f Hf) as [(r & E & V)|(E & n & V & S)]; rewrite E; split.
  - discriminate.
  - intros (n & V' & S). exfalso. rewrite (FontVerdict_fun _ _ _ V V') in E.
    unfold font_validate in E. destruct Hf as (H1 & H2 & H3 & H4 & Hc & Hl).
    repeat match type of E with (if ?b then _ else _) = _ => destruct b; try discriminate end.
    destruct (validate_numbers_spec _ Hc) as [[E' N]|(m & F & E')]; rewrite E' in E; [discriminate|].
    destruct (is_charb m) eqn:C; cbn in E; [|discriminate]. inversion E; subst.
    unfold is_charb in C. lia.
  - eauto.
  - reflexivity.
Qed.

Lemma font_validate_verdict f r : font_fields f -> font_validate f <> Panic ->
  (font_validate f = Val r <-> FontVerdict f r).
Proof.
  intros Hf Hp. destruct (font_validate_cases f Hf) as [(s & E & V)|(E & _)]; [|contradiction].
  rewrite E. split; [intros H; inversion H; now subst|].
  intros H. now rewrite (FontVerdict_fun _ _ _ V H).
Qed.

(** ** Characters *)

Lemma find_spec {A} (p : A -> bool) l x : find p l = Some x <->
  p x = true /\ exists pre post, l = pre ++ x :: post /\ forall y, In y pre -> p y = false.
Proof.
  induction l as [|a l IH]; cbn [find]; split.
  - discriminate.
  - intros (_ & pre & post & E & _). destruct pre; discriminate.
  - destruct (p a) eqn:P.
    + intros H; inversion H; subst. split; [auto|]. exists [], l. split; [reflexivity|contradiction].
    + intros H. apply IH in H. destruct H as (Px & pre & post & -> & F). split; [auto|].
      exists (a :: pre), post. split; [reflexivity|]. intros y [<-|I]; auto.
  - intros (Px & pre & post & E & F). destruct pre as [|b pre]; inversion E; subst.
    + now rewrite Px.
    + rewrite (F b) by (cbn; auto). apply IH. split; [auto|]. exists pre, post.
      split; [auto|]. intros y I. apply F. cbn; auto.
Qed.

Lemma character_spec f ch c : character f ch = Some c <-> HasChar f ch c.
Proof.
  unfold character, HasChar. destruct (Z.ltb_spec ch 65536) as [L|L].
  - rewrite find_spec, Z.eqb_eq. split.
    + intros (E & pre & post & Ef & F). splits; auto. exists pre, post. split; [auto|].
      intros d I. specialize (F d I). lia.
    + intros (_ & E & pre & post & Ef & F). split; [auto|]. exists pre, post. split; [auto|].
      intros d I. specialize (F d I). lia.
  - split; [discriminate|lia].
Qed.

Lemma character_none f ch : character f ch = None <-> forall c, ~ HasChar f ch c.
Proof.
  split.
  - intros E c H. apply character_spec in H. congruence.
  - intros H. destruct (character f ch) eqn:E; [|reflexivity]. apply character_spec in E. now apply H in E.
Qed.

Lemma HasChar_In f ch c : HasChar f ch c -> In c (f_characters f).
Proof. intros (_ & _ & pre & post & -> & _). rewrite in_app_iff. cbn; auto. Qed.

Lemma Spells_In f text cs c : Spells f text cs -> In c cs -> In c (f_characters f).
Proof.
  induction 1 as [|ch d text cs H Hs IH]; [contradiction|].
  intros [<-|I]; [now apply HasChar_In in H|auto].
Qed.

Lemma Spells_fun f text cs cs' : Spells f text cs -> Spells f text cs' -> cs = cs'.
Proof.
  intros H; revert cs'; induction H as [|ch d text cs H Hs IH]; intros cs' H'; inversion H'; subst; [auto|].
  f_equal; [|auto]. apply character_spec in H, H2. congruence.
Qed.

(** Every text is spelled or has a first missing character. *)
Lemma spells_or_missing f text :
  (exists cs, Spells f text cs) \/ exists cs ch, FirstMissing f text cs ch.
Proof.
  induction text as [|ch text IH]; [left; exists []; constructor|].
  destruct (character f ch) as [c|] eqn:E.
  - apply character_spec in E. destruct IH as [(cs & H)|(cs & m & pre & post & -> & H & N)].
    + left. exists (c :: cs). now constructor.
    + right. exists (c :: cs), m, (ch :: pre), post. splits; auto. now constructor.
  - right. exists [], ch, [], text. splits; auto; [constructor|]. now apply character_none.
Qed.

(** ** Text width *)

Definition add_width (sp w c : Z) : Z := if 0 <? w then w + sp + c else w + c.

Lemma spread_cons sp w ws : ws <> [] -> spread sp (w :: ws) = w + sp + spread sp ws.
Proof. destruct ws; [congruence|reflexivity]. Qed.

Lemma acc_width sp ws w : 0 < w -> 0 <= sp -> Forall (fun c => 0 <= c) ws ->
  fold_left (add_width sp) ws w = spread sp (w :: ws).
Proof.
  revert w. induction ws as [|c ws IH]; intros w Hw Hs H; [reflexivity|]. inv H.
  cbn [fold_left]. unfold add_width at 2. destruct (Z.ltb_spec 0 w); [|lia].
  rewrite IH by (auto; lia). rewrite (spread_cons sp w (c :: ws)) by discriminate.
  destruct ws as [|d ws]; [reflexivity|]. rewrite !(spread_cons sp _ (d :: ws)) by discriminate. lia.
Qed.

Lemma line_width_fold sp ws : 0 <= sp -> Forall (fun c => 0 <= c) ws ->
  fold_left (add_width sp) ws 0 = line_width sp ws.
Proof.
  intros Hs. unfold line_width. induction ws as [|c ws IH]; intros H; [reflexivity|]. inv H.
  cbn [fold_left drop_zeros]. unfold add_width at 2. cbn [Z.ltb Z.compare]. rewrite Z.add_0_l.
  destruct c as [|c|c]; [auto| |lia]. rewrite acc_width by (auto; lia). reflexivity.
Qed.

Lemma acc_mono sp ws w : 0 <= sp -> Forall (fun c => 0 <= c) ws -> w <= fold_left (add_width sp) ws w.
Proof.
  intros Hs. revert w. induction ws as [|c ws IH]; intros w H; [cbn; lia|]. inv H. cbn [fold_left].
  specialize (IH (add_width sp w c) H3). unfold add_width at 1 in IH. 
  destruct (0 <? w); lia.
Qed.

Lemma text_width_acc md f sp text cs rest w : 0 <= sp -> 0 <= w -> Forall (fun c => 0 <= c) (map c_width cs) ->
  Spells f text cs -> fold_left (add_width sp) (map c_width cs) w < 65536 ->
  text_width_loop md f sp (text ++ rest) w
  = text_width_loop md f sp rest (fold_left (add_width sp) (map c_width cs) w).
Proof.
  intros Hs Hw Hc H. revert w Hw Hc. induction H as [|ch c text cs H Hsp IH]; intros w Hw Hc L; [reflexivity|].
  cbn [map fold_left app text_width_loop] in *. inv Hc.
  pose proof (acc_mono sp _ (add_width sp w (c_width c)) Hs H3) as Q.
  assert (B : add_width sp w (c_width c) < 65536) by lia.
  assert (E : add_width sp w (c_width c) = (if 0 <? w then w + sp else w) + c_width c)
    by (unfold add_width; destruct (0 <? w); lia).
  pose proof (proj2 (character_spec f ch c) H) as C. rewrite C.
  rewrite <- IH; auto; [|rewrite E; destruct (0 <? w); lia].
  rewrite E in B |- *. unfold chk16.
  destruct (0 <? w); cbn [bind]; repeat (rewrite chk_in by lia; cbn [bind]); reflexivity.
Qed.

Lemma text_width_over f sp text cs rest w : 0 <= sp -> 0 <= w < 65536 -> Forall (fun c => 0 <= c) (map c_width cs) ->
  Spells f text cs -> 65536 <= fold_left (add_width sp) (map c_width cs) w ->
  text_width_loop Debug f sp (text ++ rest) w = Panic.
Proof.
  intros Hs Hw Hc H. revert w Hw Hc. induction H as [|ch c text cs H Hsp IH]; intros w Hw Hc L.
  { cbn in L. lia. }
  cbn [map fold_left app text_width_loop] in *. inv Hc.
  assert (E : add_width sp w (c_width c) = (if 0 <? w then w + sp else w) + c_width c)
    by (unfold add_width; destruct (0 <? w); lia).
  pose proof (proj2 (character_spec f ch c) H) as C. rewrite C. rewrite E in L.
  destruct (Z_lt_ge_dec ((if 0 <? w then w + sp else w) + c_width c) 65536) as [B|B].
  - specialize (IH ((if 0 <? w then w + sp else w) + c_width c)).
    rewrite <- IH; auto; [|destruct (0 <? w); lia]. unfold chk16.
    destruct (0 <? w); cbn [bind]; repeat (rewrite chk_in by lia; cbn [bind]); reflexivity.
  - destruct (0 <? w) eqn:W.
    + destruct (Z_lt_ge_dec (w + sp) 65536) as [B'|B']; unfold chk16.
      * rewrite (chk_in _ _ (w + sp)) by lia. cbn [bind].
        rewrite (proj2 (chk_debug _ _)) by lia. reflexivity.
      * rewrite (proj2 (chk_debug _ (w + sp))) by lia. reflexivity.
    + unfold chk16. cbn [bind]. rewrite (proj2 (chk_debug _ _)) by lia. reflexivity.
Qed.

Definition spacing_of (f : Font) (cs : option Z) : Z :=
  match cs with Some c => c | None => f_char_spacing f end.

Lemma widths_nonneg f text cs : Forall char_fields (f_characters f) -> Spells f text cs ->
  Forall (fun c => 0 <= c) (map c_width cs).
Proof.
  intros H S. rewrite Forall_forall in *. intros w I. rewrite in_map_iff in I. destruct I as (c & <- & I).
  eapply Spells_In in I; [|eauto]. destruct (H c I) as (_ & W & _). unfold u8 in W. lia.
Qed.

Lemma text_width_ok md f text o cs : Forall char_fields (f_characters f) -> 0 <= spacing_of f o ->
  Spells f text cs -> line_width (spacing_of f o) (map c_width cs) < 65536 ->
  text_width md f text o = Val (Ok (line_width (spacing_of f o) (map c_width cs))).
Proof.
  intros Hf Hs H L. pose proof (widths_nonneg _ _ _ Hf H) as W.
  unfold text_width. fold (spacing_of f o). rewrite <- (app_nil_r text).
  rewrite <- line_width_fold in L |- * by auto.
  rewrite (text_width_acc _ _ _ _ cs) by (auto; lia). reflexivity.
Qed.

Lemma text_width_missing md f text o cs ch : Forall char_fields (f_characters f) -> 0 <= spacing_of f o ->
  FirstMissing f text cs ch -> line_width (spacing_of f o) (map c_width cs) < 65536 ->
  text_width md f text o = Val (Err (FInvalidChar ch)).
Proof.
  intros Hf Hs (pre & post & -> & H & N) L. pose proof (widths_nonneg _ _ _ Hf H) as W.
  unfold text_width. fold (spacing_of f o). 
  rewrite <- line_width_fold in L by auto.
  rewrite (text_width_acc _ _ _ _ cs) by (auto; lia). cbn [text_width_loop].
  apply character_none in N. now rewrite N.
Qed.

Lemma text_width_panic f pre post o cs : Forall char_fields (f_characters f) -> 0 <= spacing_of f o ->
  Spells f pre cs -> 65536 <= line_width (spacing_of f o) (map c_width cs) ->
  text_width Debug f (pre ++ post) o = Panic.
Proof.
  intros Hf Hs H L. pose proof (widths_nonneg _ _ _ Hf H) as W.
  unfold text_width. fold (spacing_of f o). rewrite <- line_width_fold in L by auto.
  apply (text_width_over _ _ _ cs); auto; lia.
Qed.
