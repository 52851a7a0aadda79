(** Proofs about reading .tfon properties. *)

From Verif Require Import Base Str Font Tfon Spec_TfonRead Proofs_Str Proofs_Tfon.
From Coq Require Import ZifyBool ZifyNat.
Ltac Zify.zify_post_hook ::= Z.div_mod_to_equations.

Definition flat (gs : list (list Property * Bitmap)) : list Property :=
  concat (map (fun p => fst p ++ [PBitmap (snd p)]) gs).

(** ** Last settings *)

Definition lst {A} (sel : Property -> option A) (d : A) (ps : list Property) : A :=
  fold_left (fun a p => match sel p with Some x => x | None => a end) ps d.

Lemma lst_none {A} (sel : Property -> option A) d ps :
  (forall q, In q ps -> sel q = None) -> lst sel d ps = d.
Proof.
  unfold lst. revert d. induction ps as [|p r IH]; intros d H; [reflexivity|].
  cbn [fold_left]. rewrite (H p) by (left; reflexivity). apply IH. intros q I. apply H. now right.
Qed.

Lemma LastOf_lst {A} (sel : Property -> option A) d ps o : LastOf sel ps o ->
  lst sel d ps = match o with Some a => a | None => d end.
Proof.
  intros [pre p post a -> E H|H]; [|now apply lst_none].
  unfold lst. rewrite fold_left_app. cbn [fold_left]. rewrite E. now apply (lst_none sel).
Qed.

Lemma LastOf_ex {A} (sel : Property -> option A) ps : exists o, LastOf sel ps o.
Proof.
  induction ps as [|p r [o IH]]; [exists None; constructor; intros q []|].
  destruct IH as [pre q post a -> E H|H].
  - exists (Some a). now apply last_some with (p :: pre) q post.
  - destruct (sel p) as [a|] eqn:E.
    + exists (Some a). now apply last_some with [] p r.
    + exists None. constructor. intros q [<-|I]; auto.
Qed.

Lemma LastOr0_iff sel ps v : LastOr0 sel ps v <-> v = lst sel 0 ps.
Proof.
  split.
  - intros [H|[H ->]]; now rewrite (LastOf_lst sel 0 ps _ H).
  - intros ->. destruct (LastOf_ex sel ps) as [[a|] H]; rewrite (LastOf_lst sel 0 ps _ H); [left|right]; auto.
Qed.

Lemma lst_app {A} (sel : Property -> option A) d a b : lst sel d (a ++ b) = lst sel (lst sel d a) b.
Proof. apply fold_left_app. Qed.

(** ** Names *)

Lemma take_bytes_split n s : 0 <= n -> exists r, s = take_bytes n s ++ r /\ len (take_bytes n s) <= n
  /\ match r with [] => True | c :: _ => n < len (take_bytes n s) + utf8_len c end.
Proof.
  revert n. induction s as [|c s IH]; intros n Hn; [exists []; splits; auto; cbn; lia|].
  cbn [take_bytes]. destruct (Z.leb_spec (utf8_len c) n).
  - destruct (IH (n - utf8_len c)) as (r & E & L & H'); [lia|]. exists r. cbn [app len]. splits.
    + congruence.
    + lia.
    + destruct r; [exact I|lia].
  - exists (c :: s). cbn [app len]. splits; auto; lia.
Qed.

Lemma take_bytes_max n t r : len t <= n ->
  match r with [] => True | c :: _ => n < len t + utf8_len c end -> take_bytes n (t ++ r) = t.
Proof.
  revert n. induction t as [|c t IH]; intros n L H; cbn [app len] in *.
  - destruct r as [|c r]; [reflexivity|]. cbn [take_bytes]. destruct (Z.leb_spec (utf8_len c) n); [lia|reflexivity].
  - cbn [take_bytes]. pose proof (len_nonneg t). destruct (Z.leb_spec (utf8_len c) n); [|lia].
    rewrite IH; [reflexivity|lia|]. destruct r; [exact I|lia].
Qed.

Lemma Name64_iff nm s : Name64 nm s <-> s = fstr64 nm.
Proof.
  split.
  - intros (t & r & k & -> & -> & L & H). unfold fstr64. rewrite take_bytes_max; auto; [|lia].
    f_equal. f_equal. lia.
  - intros ->. destruct (take_bytes_split 64 nm) as (r & E & L & H); [lia|].
    exists (take_bytes 64 nm), r, (Z.to_nat (64 - len (take_bytes 64 nm))). splits; auto; lia.
Qed.

(** ** Heights *)

Lemma repeat_snoc {A} (a : A) n : repeat a (S n) = repeat a n ++ [a].
Proof. exact (repeat_cons n a). Qed.

Lemma Share_nil : Share [] 0.
Proof. exists 0%nat, 0%nat. splits; auto; tauto. Qed.

Lemma Share_zero bs b : Share bs 0 -> Share (bs ++ [b]) (bm_height b).
Proof.
  intros (j & k & E & H). assert (k = 0%nat) as -> by (apply H; reflexivity).
  cbn [repeat] in E. rewrite app_nil_r in E. destruct (Z.eq_dec (bm_height b) 0) as [Z|Z].
  - exists (S j), 0%nat. rewrite map_app, E, repeat_snoc. cbn [map repeat]. rewrite app_nil_r, Z. splits; auto; tauto.
  - exists j, 1%nat. rewrite map_app, E. cbn [map repeat]. split; [reflexivity|]. split; intros; [contradiction|discriminate].
Qed.

Lemma Share_same bs b h : Share bs h -> h <> 0 -> bm_height b = h -> Share (bs ++ [b]) h.
Proof.
  intros (j & k & E & H) N B. exists j, (S k). rewrite map_app, E, repeat_snoc. cbn [map].
  rewrite B, <- app_assoc. split; [reflexivity|]. split; intros; [contradiction|discriminate].
Qed.

Lemma Share_back bs b h : Share (bs ++ [b]) h ->
  (Share bs 0 /\ h = bm_height b) \/ (Share bs h /\ h <> 0 /\ bm_height b = h).
Proof.
  intros (j & k & E & H). rewrite map_app in E. cbn [map] in E.
  destruct k as [|k].
  - assert (h = 0) as -> by (apply H; reflexivity). cbn [repeat] in E. rewrite app_nil_r in E.
    destruct j as [|j]; [destruct (map bm_height bs); discriminate|]. rewrite repeat_snoc in E.
    apply app_inj_tail in E. destruct E as [E1 E2]. left. split; [|auto].
    exists j, 0%nat. rewrite E1. cbn [repeat]. rewrite app_nil_r. splits; auto; tauto.
  - rewrite repeat_snoc, app_assoc in E. apply app_inj_tail in E. destruct E as [E1 E2].
    assert (h <> 0) by (intros E0; apply H in E0; discriminate).
    destruct k as [|k].
    + left. split; [|auto]. exists j, 0%nat. rewrite E1. cbn [repeat]. splits; auto; tauto.
    + right. splits; auto. exists j, (S k). split; [exact E1|]. split; intros; [contradiction|discriminate].
Qed.

(** ** The state of the loop *)

Definition name64_of p := match p with PFontName n => Some (fstr64 n) | _ => None end.

Definition rest_of (C : nat) (cs : list CharacterEntry) (x : Z) : list CharacterEntry :=
  match (C - length cs)%nat with
  | O => []
  | S k => mkChar x 0 [] :: repeat char_default k
  end.

Definition st (C : nat) (seen : list Property) (cs : list CharacterEntry) (x h : Z) : Font :=
  mkFont (lst number_of 0 seen) (lst name64_of name_default seen) h
    (lst char_spacing_of 0 seen) (lst line_spacing_of 0 seen) (cs ++ rest_of C cs x).

Definition slots (gs : list (list Property * Bitmap)) : list CharacterEntry :=
  map (fun p => mkChar (lst code_of 0 (fst p)) (bm_width (snd p)) (bm_bits (snd p))) gs.

Lemma HasCode_dec g : HasCode g \/ ~ HasCode g.
Proof.
  induction g as [|p r IH]; [right; intros [? []]|].
  destruct IH as [[c I]|N]; [left; exists c; now right|].
  destruct p; try (right; intros [c' [E|I]]; [discriminate|apply N; now exists c']; fail).
  left. exists cp. now left.
Qed.

Lemma parse_group C cs h rest : forall g seen x, NoBitmap g -> (length cs <= C)%nat ->
  (HasCode g -> (length cs < C)%nat) ->
  parse_props (g ++ rest) (st C seen cs x h) (length cs)
  = parse_props rest (st C (seen ++ g) cs (lst code_of x g) h) (length cs).
Proof.
  induction g as [|p g IH]; intros seen x Hb Hc Hg; [cbn [app]; now rewrite app_nil_r|].
  assert (Hb' : NoBitmap g) by (intros b I; apply (Hb b); now right).
  assert (Hg' : HasCode g -> (length cs < C)%nat) by (intros [c I]; apply Hg; exists c; now right).
  assert (E : forall x', st C (seen ++ p :: g) cs x' h = st C ((seen ++ [p]) ++ g) cs x' h)
    by (intros; now rewrite <- app_assoc).
  rewrite E. cbn [app]. destruct p.
  1,2,3,4,7: change (lst code_of x (?p :: g)) with (lst code_of x g); rewrite <- IH by auto;
    cbn [parse_props]; unfold st; cbn [f_number f_name f_height f_char_spacing f_line_spacing f_characters];
    rewrite !lst_app; reflexivity.
  2: destruct (Hb b); now left.
  change (lst code_of x (PCodePoint cp :: g)) with (lst code_of cp g). rewrite <- IH by auto.
  cbn [parse_props]. unfold st at 1 2 3 4 5 6. cbn [f_number f_name f_height f_char_spacing f_line_spacing f_characters].
  assert (L : (length cs < C)%nat) by (apply Hg; exists cp; now left).
  unfold rest_of. destruct (C - length cs)%nat as [|k] eqn:K; [lia|]. rewrite update_at. cbn [bind].
  unfold st, rest_of. rewrite K, !lst_app. reflexivity.
Qed.

Lemma parse_group_over C cs h rest : forall g seen x, NoBitmap g -> length cs = C -> HasCode g ->
  parse_props (g ++ rest) (st C seen cs x h) (length cs) = Panic.
Proof.
  intros g seen x Hb Hc [cp I].
  assert (exists a b c, g = a ++ PCodePoint c :: b /\ ~ HasCode a) as (a & b & c & -> & N).
  { clear Hb. induction g as [|p g IH]; [destruct I|].
    destruct (HasCode_dec [p]) as [[c J]|J].
    - destruct J as [->|[]]. exists [], g, c. split; [reflexivity|]. intros [? []].
    - destruct I as [->|I]; [destruct J; exists cp; now left|]. destruct (IH I) as (a & b & c & -> & N).
      exists (p :: a), b, c. split; [reflexivity|]. intros [c' [->|I']]; [apply J; exists c'; now left|apply N; now exists c']. }
  rewrite <- app_assoc, parse_group; [|intros b' I'; apply (Hb b'); apply in_or_app; now left|lia|intros H; contradiction].
  cbn [app parse_props]. rewrite update_char_over; [reflexivity|]. unfold st. cbn [f_characters].
  unfold rest_of. rewrite Hc, Nat.sub_diag, app_nil_r. lia.
Qed.

Lemma parse_bitmap C cs h rest seen x b : (length cs < C)%nat -> 0 <= h ->
  h = 0 \/ bm_height b = h ->
  parse_props (PBitmap b :: rest) (st C seen cs x h) (length cs)
  = parse_props rest (st C (seen ++ [PBitmap b]) (cs ++ [mkChar x (bm_width b) (bm_bits b)]) 0 (bm_height b))
      (length (cs ++ [mkChar x (bm_width b) (bm_bits b)])).
Proof.
  intros L P H. cbn [parse_props]. unfold st at 1 2 3 4 5 6 7 8 9.
  cbn [f_number f_name f_height f_char_spacing f_line_spacing f_characters].
  replace ((0 <? h) && negb (bm_height b =? h)) with false by lia.
  replace (if 0 <? h then h else bm_height b) with (bm_height b) by (destruct (Z.ltb_spec 0 h); lia).
  unfold rest_of at 1. destruct (C - length cs)%nat as [|k] eqn:K; [lia|]. rewrite update_at. cbn [bind].
  rewrite app_length. cbn [length]. replace (length cs + 1)%nat with (S (length cs)) by lia.
  unfold st. rewrite !lst_app. f_equal. f_equal. rewrite <- app_assoc. cbn [app]. f_equal. f_equal.
  unfold rest_of. rewrite app_length. cbn [length].
  replace (C - (length cs + 1))%nat with k by lia. destruct k; reflexivity.
Qed.

Lemma parse_bitmap_differs C cs h rest seen x b n : 0 < h -> bm_height b <> h ->
  parse_props (PBitmap b :: rest) (st C seen cs x h) n = Val (Err FInvalidCharHeight).
Proof.
  intros P H. cbn [parse_props]. unfold st at 1 2. cbn [f_height].
  now replace ((0 <? h) && negb (bm_height b =? h)) with true by lia.
Qed.

Lemma parse_bitmap_over C cs h rest seen x b : length cs = C -> h = 0 \/ bm_height b = h ->
  parse_props (PBitmap b :: rest) (st C seen cs x h) (length cs) = Panic.
Proof.
  intros L H. cbn [parse_props]. unfold st at 1 2. cbn [f_height].
  replace ((0 <? h) && negb (bm_height b =? h)) with false by lia.
  rewrite update_char_over; [reflexivity|]. unfold st. cbn [f_characters].
  unfold rest_of. rewrite L, Nat.sub_diag, app_nil_r. lia.
Qed.

Lemma slots_length gs : length (slots gs) = length gs.
Proof. apply map_length. Qed.

Definition HeightsOk (gs : list (list Property * Bitmap)) : Prop :=
  Forall (fun p => 0 <= bm_height (snd p)) gs.

Lemma Share_nonneg gs h : HeightsOk gs -> Share (map snd gs) h -> 0 <= h.
Proof.
  intros H. revert h. induction gs as [|p gs IH] using rev_ind; intros h S.
  - destruct S as (j & k & E & Hk). destruct k; [assert (h = 0) by (apply Hk; reflexivity); lia|].
    destruct j; discriminate.
  - rewrite map_app in S. cbn [map] in S. apply Forall_app in H. destruct H as [H1 H2].
    inversion H2; subst. destruct (Share_back _ _ _ S) as [[? ->]|[? _]]; auto.
Qed.

Lemma parse_prefix C : forall gs h rest, HeightsOk gs -> (forall g b, In (g, b) gs -> NoBitmap g) ->
  (length gs <= C)%nat -> Share (map snd gs) h ->
  parse_props (flat gs ++ rest) (font_default C) 0
  = parse_props rest (st C (flat gs) (slots gs) 0 h) (length gs).
Proof.
  induction gs as [|[g b] gs IH] using rev_ind; intros h rest Hh Hb Hl S.
  - cbn. assert (h = 0) as ->.
    { destruct S as (j & k & E & Hk). destruct k; [apply Hk; reflexivity|]. destruct j; discriminate. }
    unfold font_default, st, rest_of. cbn [app length]. rewrite Nat.sub_0_r. destruct C; reflexivity.
  - apply Forall_app in Hh. destruct Hh as [Hh1 Hh2]. inversion Hh2 as [|? ? Hb0 _]; subst. cbn [snd] in Hb0.
    rewrite map_app in S. cbn [map snd] in S. rewrite app_length in Hl. cbn [length] in Hl.
    assert (F : flat (gs ++ [(g, b)]) = flat gs ++ g ++ [PBitmap b]).
    { unfold flat. rewrite map_app, concat_app. cbn [map concat fst snd]. now rewrite app_nil_r. }
    rewrite F, <- !app_assoc.
    assert (N : NoBitmap g) by (apply (Hb g b); apply in_or_app; right; now left).
    assert (Hb' : forall g0 b0, In (g0, b0) gs -> NoBitmap g0)
      by (intros g0 b0 I; apply (Hb g0 b0); apply in_or_app; now left).
    assert (exists h0, Share (map snd gs) h0 /\ (h0 = 0 \/ bm_height b = h0) /\ h = bm_height b) as (h0 & S0 & D & ->).
    { destruct (Share_back _ _ _ S) as [[S0 ->]|[S0 [N0 E0]]]; [exists 0|exists h]; splits; auto. }
    rewrite (IH h0) by (auto; lia). rewrite <- (slots_length gs).
    rewrite parse_group by (auto; rewrite slots_length; lia). cbn [app].
    rewrite parse_bitmap; auto; [|rewrite slots_length; lia|now apply (Share_nonneg gs)].
    replace (slots (gs ++ [(g, b)])) with (slots gs ++ [mkChar (lst code_of 0 g) (bm_width b) (bm_bits b)])
      by (unfold slots; now rewrite map_app).
    rewrite <- app_assoc. f_equal. rewrite !app_length, slots_length. reflexivity.
Qed.

(** ** The font that is read *)

Lemma nth_repeat_default k n (c : CharacterEntry) :
  nth_error (repeat char_default k) n = Some c -> c = char_default.
Proof. intros H. apply nth_error_In in H. now apply repeat_spec in H. Qed.

Lemma Slot_st C gs tail n c : Room C gs tail ->
  (nth_error (slots gs ++ rest_of C (slots gs) (lst code_of 0 tail)) n = Some c
   <-> (n < C)%nat /\ Slot gs tail n c).
Proof.
  intros [R1 R2]. unfold Slot. destruct (nth_error gs n) as [[g b]|] eqn:E.
  - assert (n < length gs)%nat by (apply nth_error_Some; congruence).
    rewrite nth_error_app1 by (rewrite slots_length; auto). unfold slots.
    rewrite (map_nth_error _ _ _ E). cbn [fst snd]. rewrite LastOr0_iff. split.
    + intros H'. injection H' as <-. cbn. splits; auto. lia.
    + intros (_ & E1 & E2 & E3). destruct c; cbn in *; congruence.
  - apply nth_error_None in E. rewrite nth_error_app2 by (rewrite slots_length; auto).
    rewrite slots_length. unfold rest_of. rewrite slots_length. rewrite LastOr0_iff.
    destruct (C - length gs)%nat as [|k] eqn:K.
    { split; [destruct (n - length gs)%nat; discriminate|intros [? _]; lia]. }
    destruct (n - length gs)%nat as [|m] eqn:M; cbn [nth_error].
    + assert (n = length gs) by lia. subst n. split.
      * intros H'. injection H' as <-. cbn. splits; auto; try lia.
      * intros (_ & H' & _ & E2 & E3). rewrite <- H' by reflexivity. destruct c; cbn in *; congruence.
    + split.
      * intros H'. assert (m < k)%nat by (rewrite <- (repeat_length char_default k); apply nth_error_Some; congruence).
        apply nth_repeat_default in H'. subst c. cbn. splits; auto; try lia.
      * intros (Hn & _ & H' & E2 & E3). rewrite nth_error_repeat by lia. f_equal. destruct c; cbn in *. rewrite E2, E3, H' by lia. reflexivity.
Qed.

Lemma nth_ext_eq {A} (l1 l2 : list A) : length l1 = length l2 ->
  (forall n a, nth_error l1 n = Some a -> nth_error l2 n = Some a) -> l1 = l2.
Proof.
  revert l2. induction l1 as [|a l1 IH]; intros [|b l2] L H; try discriminate; [reflexivity|].
  pose proof (H 0%nat a eq_refl) as H0. cbn in H0. injection H0 as ->. f_equal. apply IH; [now injection L|].
  intros n c E. apply (H (S n) c E).
Qed.

Lemma st_length C gs x : (length gs <= C)%nat -> length (slots gs ++ rest_of C (slots gs) x) = C.
Proof.
  intros L. rewrite app_length, slots_length. unfold rest_of. rewrite slots_length.
  destruct (C - length gs)%nat as [|k] eqn:K; cbn [length]; [lia|]. rewrite repeat_length. lia.
Qed.

Lemma name_lst_some ps nm : LastOf name_of ps (Some nm) -> lst name64_of name_default ps = fstr64 nm.
Proof.
  intros H. assert (H' : LastOf name64_of ps (Some (fstr64 nm))).
  { inversion H as [pre p post a E S N|]; subst. apply last_some with pre p post; auto.
    - destruct p; try discriminate. injection S as ->. reflexivity.
    - intros q I. specialize (N q I). destruct q; try reflexivity; discriminate. }
  now rewrite (LastOf_lst name64_of name_default ps _ H').
Qed.

Lemma name_lst_none ps : LastOf name_of ps None -> lst name64_of name_default ps = name_default.
Proof.
  intros H. inversion H as [|N]; subst. apply lst_none. intros q I. specialize (N q I).
  destruct q; try reflexivity; discriminate.
Qed.

Lemma name_lst_iff ps s :
  (LastOf name_of ps None /\ s = name_default \/ exists nm, LastOf name_of ps (Some nm) /\ Name64 nm s)
  <-> s = lst name64_of name_default ps.
Proof.
  split.
  - intros [[H ->]|(nm & H & N)]; [now rewrite name_lst_none|]. apply Name64_iff in N. subst.
    now rewrite (name_lst_some _ _ H).
  - intros ->. destruct (LastOf_ex name_of ps) as [[nm|] H].
    + right. exists nm. split; auto. apply Name64_iff. now apply name_lst_some.
    + left. split; auto. now apply name_lst_none.
Qed.

Lemma Grouped_heights ps gs tail : (forall b, In (PBitmap b) ps -> 0 <= bm_height b) ->
  Grouped ps gs tail -> HeightsOk gs.
Proof.
  intros H (-> & _ & _). apply Forall_forall. intros [g b] I. cbn [snd]. apply H. apply in_or_app. left.
  apply in_concat. exists (g ++ [PBitmap b]). split.
  - apply in_map_iff. exists (g, b). auto.
  - apply in_or_app. right. now left.
Qed.

Lemma flat_app a b : flat (a ++ b) = flat a ++ flat b.
Proof. unfold flat. now rewrite map_app, concat_app. Qed.

Lemma flat_cons g b gs : flat ((g, b) :: gs) = g ++ PBitmap b :: flat gs.
Proof. unfold flat. cbn [map concat fst snd]. now rewrite <- app_assoc. Qed.

Lemma read_sound C ps o : (forall b, In (PBitmap b) ps -> 0 <= bm_height b) ->
  TfonReads C ps o -> tfon_parse C ps = o.
Proof.
  intros Hps H. unfold tfon_parse.
  destruct H as [gs tail f G R S F1 F2 F3 F4 L FS|pre g b post tail h G R S N D|pre post tail h G L S D].
  - pose proof (Grouped_heights _ _ _ Hps G) as Hh. destruct G as (E & G1 & G2). destruct R as [R1 R2].
    fold (flat gs) in E. rewrite E at 1. rewrite (parse_prefix C gs (f_height f)) by auto.
    rewrite <- (slots_length gs), <- (app_nil_r tail), parse_group by (auto; rewrite slots_length; auto).
    cbn [parse_props]. rewrite <- E. f_equal. f_equal.
    apply LastOr0_iff in F1, F2, F3. apply name_lst_iff in F4. destruct f as [nu na he cs ls ch]. cbn in *.
    unfold st. rewrite F1, F2, F3, F4. f_equal. symmetry. apply nth_ext_eq; [now rewrite st_length|].
    intros n c Hn. apply Slot_st; [now split|]. split; [rewrite <- L; apply nth_error_Some; congruence|auto].
  - pose proof (Grouped_heights _ _ _ Hps G) as Hh. destruct G as (E & G1 & G2). destruct R as [R1 R2].
    fold (flat (pre ++ (g, b) :: post)) in E. rewrite E, flat_app, flat_cons.
    apply Forall_app in Hh. destruct Hh as [Hh1 Hh2]. rewrite <- !app_assoc.
    assert (G1' : forall g0 b0, In (g0, b0) pre -> NoBitmap g0)
      by (intros g0 b0 I; apply (G1 g0 b0); apply in_or_app; now left).
    rewrite (parse_prefix C pre h) by auto. pose proof (Share_nonneg _ _ Hh1 S).
    rewrite <- (slots_length pre), parse_group; [|apply (G1 g b); apply in_or_app; right; now left|rewrite slots_length; auto|rewrite slots_length; auto].
    cbn [app]. apply parse_bitmap_differs; [lia|auto].
  - pose proof (Grouped_heights _ _ _ Hps G) as Hh. destruct G as (E & G1 & G2).
    fold (flat (pre ++ post)) in E. rewrite E, flat_app, <- app_assoc.
    apply Forall_app in Hh. destruct Hh as [Hh1 Hh2].
    assert (G1' : forall g0 b0, In (g0, b0) pre -> NoBitmap g0)
      by (intros g0 b0 I; apply (G1 g0 b0); apply in_or_app; now left).
    rewrite (parse_prefix C pre h) by (auto; lia). rewrite <- (slots_length pre).
    destruct post as [|[g b] post].
    + cbn. rewrite <- (app_nil_r tail). apply parse_group_over; auto. now rewrite slots_length.
    + assert (NoBitmap g) by (apply (G1 g b); apply in_or_app; right; now left).
      rewrite flat_cons, <- app_assoc. destruct (HasCode_dec g) as [K|K].
      * apply parse_group_over; auto. now rewrite slots_length.
      * rewrite parse_group; auto; [|rewrite slots_length; lia|contradiction].
        cbn [app]. apply parse_bitmap_over; [now rewrite slots_length|tauto].
Qed.

Lemma Grouped_ex ps : exists gs tail, Grouped ps gs tail.
Proof. unfold Grouped.
  induction ps as [|p ps (gs & tail & E & G1 & G2)].
  { exists [], []. splits; [reflexivity|intros ? ? []|intros ? []]. }
  assert (C : (exists b, p = PBitmap b) \/ NoBitmap [p]).
  { destruct p; try (right; intros ? [?|[]]; discriminate). left. now eexists. }
  destruct C as [[b ->]|N].
  - exists (([], b) :: gs), tail. splits; auto.
    + cbn [map concat fst snd app]. now rewrite E at 1.
    + intros g b' [H|I]; [injection H as <- <-; intros ? []|eauto].
  - destruct gs as [|[g b] gs].
    + exists [], (p :: tail). splits; [now rewrite E at 1|intros ? ? []|].
      intros b [->|I]; [apply (N b); now left|now apply (G2 b)].
    + exists ((p :: g, b) :: gs), tail. splits; auto.
      * cbn [map concat fst snd app] in *. now rewrite E at 1.
      * intros g' b' [H|I]; [|apply (G1 g' b'); now right]. injection H as <- <-.
        intros b' [->|I]; [apply (N b'); now left|]. apply (G1 g b) with b'; [now left|auto].
Qed.

Lemma read_total C ps : exists o, TfonReads C ps o.
Proof.
  destruct (Grouped_ex ps) as (gs & tail & G).
  assert (H : forall post pre h, gs = pre ++ post -> (length pre <= C)%nat -> Share (map snd pre) h ->
    exists o, TfonReads C ps o).
  { induction post as [|[g b] post IH]; intros pre h E L S.
    - rewrite app_nil_r in E. subst pre.
      destruct (HasCode_dec tail) as [K|K], (Nat.eq_dec (length gs) C) as [E|E].
      1: { exists Panic. apply (tr_panic C ps gs [] tail h); auto. now rewrite app_nil_r. }
      all: assert (R : Room C gs tail) by (split; [exact L|intros; first [contradiction|lia]]).
      all: exists (Val (Ok (st C ps (slots gs) (lst code_of 0 tail) h))).
      all: apply (tr_ok C ps gs tail); auto; unfold st; cbn;
        try (apply LastOr0_iff; reflexivity); try (apply name_lst_iff; reflexivity);
        try (apply st_length; exact L); intros n c Hn; apply Slot_st in Hn; tauto.
    - destruct (Nat.eq_dec (length pre) C) as [EC|EC].
      + destruct (HasCode_dec g) as [K|K].
        { exists Panic. apply (tr_panic C ps pre ((g, b) :: post) tail h); auto. now rewrite <- E. }
        destruct (Z.eq_dec h 0) as [Z|Z].
        { exists Panic. apply (tr_panic C ps pre ((g, b) :: post) tail h); auto. now rewrite <- E. }
        destruct (Z.eq_dec (bm_height b) h) as [B|B].
        { exists Panic. apply (tr_panic C ps pre ((g, b) :: post) tail h); auto. now rewrite <- E. }
        eexists. apply (tr_height C ps pre g b post tail h); auto; [now rewrite <- E|].
        split; [lia|contradiction].
      + destruct (Z.eq_dec h 0) as [Z|Z].
        { apply (IH (pre ++ [(g, b)]) (bm_height b)).
          - now rewrite <- app_assoc.
          - rewrite app_length. cbn [length]. lia.
          - rewrite map_app. subst h. now apply Share_zero. }
        destruct (Z.eq_dec (bm_height b) h) as [B|B].
        { apply (IH (pre ++ [(g, b)]) h).
          - now rewrite <- app_assoc.
          - rewrite app_length. cbn [length]. lia.
          - rewrite map_app. now apply Share_same. }
        eexists. apply (tr_height C ps pre g b post tail h); auto; [now rewrite <- E|].
        split; [lia|]. lia. }
  apply (H gs [] 0); [reflexivity|cbn; lia|apply Share_nil].
Qed.

Lemma tfon_parse_exact C ps o : (forall b, In (PBitmap b) ps -> 0 <= bm_height b) ->
  (tfon_parse C ps = o <-> TfonReads C ps o).
Proof.
  intros H. split; [|now apply read_sound]. intros <-. destruct (read_total C ps) as [o R].
  now rewrite (read_sound C ps o H R).
Qed.
