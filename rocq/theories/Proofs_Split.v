(** Tokenisation: [split] computes exactly the tokens of [Spec_Multi.Tokens]. *)

From Coq Require Import String.
From Verif Require Import Base Str Multi Spec_Multi Proofs_Str.

Lemma plain_prefix s : exists p rest, s = p ++ rest /\ plain p /\ at_boundary rest.
Proof.
  induction s as [|c s (p & rest & -> & Hp & Hr)].
  - exists [], []. repeat split; [constructor|now left].
  - destruct (Z.eq_dec c 91) as [->|H1]; [|destruct (Z.eq_dec c 93) as [->|H2]].
    + exists [], (91 :: p ++ rest). repeat split; [constructor|]. right. exists 91, (p ++ rest).
      split; auto. now left.
    + exists [], (93 :: p ++ rest). repeat split; [constructor|]. right. exists 93, (p ++ rest).
      split; auto. now right.
    + exists (c :: p), rest. repeat split; auto. now constructor.
Qed.

Lemma scan_plain o i p rest :
  plain p -> slice_scan o i (p ++ rest) = slice_scan o (i + len p) rest.
Proof.
  intros H. revert i. induction H as [|c p [H1 H2] H IH]; intros i; cbn [app len].
  - f_equal. lia.
  - cbn [slice_scan]. destruct (Z.eqb_spec c 91); [lia|]. destruct (Z.eqb_spec c 93); [lia|].
    cbn [andb]. rewrite IH. f_equal. lia.
Qed.

Lemma chop_app md s off a t rest :
  s = a ++ t ++ rest -> off = len a -> t <> [] ->
  chop_start md (mkMS s off) (len t) = Val (Some t, mkMS s (off + len t)).
Proof.
  intros -> -> Ht. unfold chop_start. pose proof (len_pos_nonempty t Ht).
  destruct md; cbn [ms_str ms_off].
  - destruct (Z.ltb_spec 0 (len t)); [|lia]. cbn [bind].
    rewrite (slice_app a t rest) by auto. reflexivity.
  - cbn [bind]. rewrite (slice_app a t rest) by auto. reflexivity.
Qed.

Lemma starts_with_nil s : starts_with s [] = true.
Proof. destruct s; reflexivity. Qed.

Lemma scan_bracket_rb o i r : slice_scan o i (93 :: r) = Some (if o then i + 1 else Z.max i 1).
Proof. reflexivity. Qed.

Lemma scan_bracket_lb o i r : 0 < i -> slice_scan o i (91 :: r) = Some i.
Proof. intros. cbn [slice_scan]. destruct (Z.ltb_spec 0 i); [|lia]. reflexivity. Qed.

(** One step of the tokeniser. *)
Lemma next_slice_token md s off a r :
  s = a ++ r -> off = len a -> r <> [] ->
  exists t rest, r = t ++ rest /\ t <> [] /\ Token t rest
    /\ next_slice md (mkMS s off) = Val (Some t, mkMS s (off + len t)).
Proof.
  intros Hs Hoff Hr. unfold next_slice, ms_remaining. cbn [ms_str ms_off].
  assert (Hrem : slice_from s off = Val r) by (subst; now apply slice_from_app).
  rewrite !Hrem. cbn [bind].
  destruct r as [|c r]; [congruence|].
  destruct (Z.eq_dec c 91) as [->|Hn91].
  - (* starts with an opening bracket *)
    destruct r as [|c' r].
    + (* alone *)
      exists [91], []. repeat split; try congruence.
      * apply (Tk_unterminated []); [constructor|now left|auto].
    + destruct (Z.eq_dec c' 91) as [->|Hc'].
      * exists [91; 91], r. repeat split; try congruence; [constructor|].
        assert (E : starts_with (91 :: 91 :: r) (lit "[[")
                    || starts_with (91 :: 91 :: r) (lit "]]") = true) by (destruct r; reflexivity).
        rewrite E. apply (chop_app md s off a [91; 91] r); auto; congruence.
      * assert (E : starts_with (91 :: c' :: r) (lit "[[")
                    || starts_with (91 :: c' :: r) (lit "]]") = false).
        { cbn. destruct (Z.eqb_spec c' 91); [congruence|]. reflexivity. }
        rewrite E. assert (Eo : starts_with (91 :: c' :: r) [91] = true) by reflexivity.
        rewrite Eo.
        change (slice_scan true 0 (91 :: c' :: r)) with (slice_scan true 1 (c' :: r)).
        destruct (plain_prefix (c' :: r)) as (p & rest & Hpr & Hp & Hb).
        rewrite Hpr, (scan_plain true 1 p rest Hp).
        destruct Hb as [->|(c & rr & -> & [->| ->])].
        -- (* unterminated at the end *)
           rewrite !app_nil_r in *. cbn [slice_scan]. rewrite <- Hpr.
           exists (91 :: c' :: r), []. rewrite app_nil_r. repeat split; try congruence.
           apply (Tk_unterminated (c' :: r)); [congruence|now left|congruence].
        -- (* unterminated before another tag *)
           pose proof (len_nonneg p). rewrite scan_bracket_lb by lia.
           exists (91 :: p), (91 :: rr). repeat split; try congruence.
           ++ apply (Tk_unterminated p); auto; [right; eauto|].
              intros ->. cbn in Hpr. inv Hpr. congruence.
           ++ change (1 + len p) with (len (91 :: p)).
              apply (chop_app md s off a (91 :: p) (91 :: rr)); auto; [|congruence].
              rewrite Hs, Hpr. reflexivity.
        -- (* complete tag *)
           rewrite scan_bracket_rb.
           exists (91 :: p ++ [93]), rr. repeat split; try congruence.
           ++ cbn. now rewrite <- app_assoc.
           ++ now apply Tk_tag.
           ++ replace (1 + len p + 1) with (len (91 :: p ++ [93]))
                by (cbn [len]; rewrite len_app; cbn [len]; rewrite !utf8_len_ascii by lia; lia).
              apply (chop_app md s off a (91 :: p ++ [93]) rr); auto; [|congruence].
              rewrite Hs, Hpr. cbn. now rewrite <- app_assoc.
  - destruct (Z.eq_dec c 93) as [->|Hn93].
    + (* starts with a closing bracket *)
      destruct r as [|c' r].
      * exists [93], []. repeat split; try congruence.
        -- apply Tk_stray. congruence.
        -- apply (chop_app md s off a [93] []); auto; congruence.
      * destruct (Z.eq_dec c' 93) as [->|Hc'].
        -- exists [93; 93], r. repeat split; try congruence; [constructor|].
           assert (E : starts_with (93 :: 93 :: r) (lit "[[")
                    || starts_with (93 :: 93 :: r) (lit "]]") = true) by (destruct r; reflexivity).
           rewrite E. apply (chop_app md s off a [93; 93] r); auto; congruence.
        -- exists [93], (c' :: r). repeat split; try congruence.
           ++ apply Tk_stray. congruence.
           ++ assert (E : starts_with (93 :: c' :: r) (lit "[[")
                    || starts_with (93 :: c' :: r) (lit "]]") = false).
              { cbn. destruct (Z.eqb_spec c' 93); [congruence|]. reflexivity. }
              rewrite E. rewrite scan_bracket_rb. cbn.
              apply (chop_app md s off a [93] (c' :: r)); auto; congruence.
    + (* text *)
      assert (E : starts_with (c :: r) (lit "[[")
                    || starts_with (c :: r) (lit "]]") = false).
      { cbn. destruct (Z.eqb_spec c 91); [congruence|]. destruct (Z.eqb_spec c 93); [congruence|].
        reflexivity. }
      rewrite E. assert (Eo : starts_with (c :: r) [91] = false).
      { cbn. destruct (Z.eqb_spec c 91); [congruence|]. reflexivity. }
      rewrite Eo. destruct (plain_prefix r) as (p & rest & -> & Hp & Hb).
      assert (Hcp : plain (c :: p)) by now constructor.
      change (c :: p ++ rest) with ((c :: p) ++ rest). rewrite (scan_plain false 0 (c :: p) rest Hcp).
      assert (Hl : 0 < len (c :: p)) by (apply len_pos_nonempty; congruence).
      exists (c :: p), rest. repeat split; try congruence.
      * now apply Tk_text.
      * destruct Hb as [->|(c' & rr & -> & Hbr)].
        -- rewrite app_nil_r. reflexivity.
        -- assert (Hsc : slice_scan false (0 + len (c :: p)) (c' :: rr) = Some (len (c :: p))).
           { destruct Hbr as [->| ->].
             - rewrite scan_bracket_lb by lia. f_equal; lia.
             - rewrite scan_bracket_rb. f_equal. lia. }
           rewrite Hsc. apply (chop_app md s off a (c :: p) (c' :: rr)); auto; try congruence.
Qed.

Lemma next_slice_end md s off :
  off = len s -> next_slice md (mkMS s off) = Val (None, mkMS s (off + 0)).
Proof.
  intros ->. unfold next_slice, ms_remaining. cbn [ms_str ms_off].
  assert (E : slice_from s (len s) = Val []).
  { rewrite <- (app_nil_r s) at 1. now apply slice_from_app. }
  rewrite !E. reflexivity.
Qed.

(** The token at the front is determined by the string. *)
Lemma plain_boundary_unique a b r r' :
  plain a -> plain b -> at_boundary r -> at_boundary r' -> a ++ r = b ++ r' -> a = b /\ r = r'.
Proof.
  intros Ha. revert b. induction Ha as [|c a [H1 H2] Ha IH]; intros b Hb Hr Hr' E.
  - destruct b as [|d b]; [split; auto|]. exfalso. inv Hb. destruct H1 as [Hd1 Hd2]. cbn in E.
    destruct Hr as [->|(c & rr & -> & [->| ->])]; congruence.
  - destruct b as [|d b].
    + exfalso. cbn in E. destruct Hr' as [->|(x & rr & -> & [->| ->])]; congruence.
    + inv Hb. cbn in E. injection E as -> E. destruct (IH b) as [-> ->]; auto.
Qed.

Lemma open_or_end_boundary r : at_open_or_end r -> at_boundary r.
Proof. intros [->|[x ->]]; [now left|]. right. exists 91, x. split; auto. now left. Qed.

Lemma boundary_rb r : at_boundary (93 :: r).
Proof. right. exists 93, r. split; auto. now right. Qed.

Lemma plain_cons c s : plain (c :: s) -> c <> 91 /\ c <> 93 /\ plain s.
Proof. intros H. inv H. tauto. Qed.

Lemma Token_unique t rest t' rest' :
  Token t rest -> Token t' rest' -> t ++ rest = t' ++ rest' -> t = t' /\ rest = rest'.
Proof.
  intros H H' E.
  assert (Hab : forall b b' (x y x' y' : str), plain b -> plain b' -> at_boundary x -> at_boundary x' ->
     b ++ x = b' ++ x' -> b = b' /\ x = x')
    by (intros; apply plain_boundary_unique; auto).
  assert (Hnp : forall t, t <> [] -> plain t -> exists c r, t = c :: r /\ c <> 91 /\ c <> 93).
  { intros [|c r] Hn Hp; [congruence|]. apply plain_cons in Hp as (?&?&?). eauto. }
  assert (Hpr : forall b, plain (91 :: b) -> False) by (intros ? Hx; inv Hx; lia).
  assert (Hpr' : forall b, plain (93 :: b) -> False) by (intros ? Hx; inv Hx; lia).
  inv H; inv H'; cbn in E; try rewrite <- !app_assoc in E; cbn in E; try discriminate E;
    try (injection E as E); auto.
  (* escapes vs tags *)
  all: try (match goal with
    | Hp : plain ?b, E : 91 :: _ = ?b ++ _ |- _ =>
        destruct b as [|z b]; cbn in E; [try discriminate E|
          injection E as <- E; exfalso; now apply Hpr in Hp]
    | Hp : plain ?b, E : ?b ++ _ = 91 :: _ |- _ =>
        destruct b as [|z b]; cbn in E; [try discriminate E|
          injection E as -> E; exfalso; now apply Hpr in Hp]
    end).
  all: try (match goal with
    | Hn : ?t <> [], Hp : plain ?t |- _ =>
       destruct (Hnp t Hn Hp) as (?c & ?r & -> & ? & ?); cbn in E; congruence end).
  all: try (match goal with H : [] = [] -> _ |- _ => specialize (H eq_refl); subst; discriminate end).
  all: try (match goal with
    | Ha : plain ?b, Hb : plain ?b', E : ?b ++ 93 :: ?x = ?b' ++ 93 :: ?y |- _ =>
        apply plain_boundary_unique in E as [-> E]; auto using boundary_rb; injection E as ->; auto
    | Ha : plain ?b, Hb : plain ?b', E : ?b ++ _ = ?b' ++ _ |- _ =>
        apply plain_boundary_unique in E as [? ?]; auto using boundary_rb, open_or_end_boundary
    end).
  all: try (subst; split; auto; fail).
  all: subst; try (match goal with H : at_open_or_end (93 :: _) |- _ =>
      destruct H as [H|[? H]]; discriminate end).
  all: try (match goal with H : forall r, ?x <> 93 :: r |- _ => exfalso; now eapply H end).
Qed.

Lemma Token_nonempty t rest : Token t rest -> t <> [].
Proof. intros H. inv H; auto; try congruence. Qed.

Lemma Tokens_unique s ts ts' : Tokens s ts -> Tokens s ts' -> ts = ts'.
Proof.
  intros H. revert ts'. induction H as [|t rest ts Ht H IH]; intros ts' H'.
  - inversion H' as [|t rest ts Ht' HT E]; auto. apply Token_nonempty in Ht'.
    destruct t; [congruence|discriminate].
  - inversion H' as [E|t' rest' ts2 Ht' HT E].
    + apply Token_nonempty in Ht. destruct t; [congruence|discriminate].
    + destruct (Token_unique t' rest' t rest Ht' Ht E) as [-> ->]. f_equal. now apply IH.
Qed.

Lemma slices_tokens md s fuel : forall a r off,
  s = a ++ r -> off = len a -> (List.length r < fuel)%nat ->
  exists ts, slices md fuel (mkMS s off) = Val ts /\ Tokens r ts.
Proof.
  induction fuel as [|f IH]; intros a r off Hs Hoff Hf; [lia|].
  cbn [slices]. destruct r as [|c r].
  - exists []. rewrite app_nil_r in Hs. subst a. rewrite next_slice_end by auto. cbn.
    split; auto. constructor.
  - destruct (next_slice_token md s off a (c :: r)) as (t & rest & Hr & Ht & HT & E); auto; [congruence|].
    rewrite E. cbn [bind].
    destruct (IH (a ++ t) rest (off + len t)) as (ts & E2 & HT2).
    + rewrite Hs, Hr. now rewrite app_assoc.
    + rewrite len_app. lia.
    + assert (List.length (c :: r) = (List.length t + List.length rest)%nat) by (rewrite Hr; apply app_length).
      destruct t; [congruence|]. cbn in *. lia.
    + rewrite E2. cbn [bind]. exists (t :: ts). split; auto. rewrite Hr. now constructor.
Qed.

Lemma split_tokens md ms : exists ts, split md ms = Val ts /\ Tokens ms ts.
Proof. unfold split. apply slices_tokens with (a := []); auto. Qed.

Lemma split_iff md ms ts : split md ms = Val ts <-> Tokens ms ts.
Proof.
  destruct (split_tokens md ms) as (ts' & E & HT). split; intros H.
  - congruence.
  - rewrite E. f_equal. eapply Tokens_unique; eauto.
Qed.

Lemma Tokens_concat s ts : Tokens s ts -> concat ts = s.
Proof. induction 1; cbn; congruence. Qed.

Lemma Tokens_nonempty s ts : Tokens s ts -> Forall (fun t => t <> []) ts.
Proof. induction 1; constructor; auto. eapply Token_nonempty; eauto. Qed.

Lemma split_lossless md ms :
  exists ts, split md ms = Val ts /\ concat ts = ms /\ Forall (fun t => t <> []) ts.
Proof.
  destruct (split_tokens md ms) as (ts & E & HT). exists ts. repeat split; auto.
  - eapply Tokens_concat; eauto.
  - eapply Tokens_nonempty; eauto.
Qed.

(** The [MultiStr] iterator parses exactly the tokens. *)
Lemma items_tokens md s fuel : forall a r off ts,
  s = a ++ r -> off = len a -> (List.length r < fuel)%nat -> Tokens r ts ->
  map fst (items_fuel md fuel (mkMS s off)) = map try_from ts.
Proof.
  induction fuel as [|f IH]; intros a r off ts Hs Hoff Hf HT; [lia|].
  cbn [items_fuel]. destruct r as [|c r].
  - rewrite app_nil_r in Hs. subst a. rewrite next_slice_end by auto.
    assert (ts = []) as -> by (eapply Tokens_unique; [eassumption|constructor]). reflexivity.
  - destruct (next_slice_token md s off a (c :: r)) as (t & rest & Hr & Ht & HTk & E); auto; [congruence|].
    rewrite E. rewrite Hr in HT. 
    inversion HT as [E0|t' rest' ts2 HTk' HT2 E0].
    + destruct t; [congruence|discriminate].
    + destruct (Token_unique _ _ _ _ HTk' HTk E0) as [-> ->]. cbn [map fst]. f_equal.
      apply (IH (a ++ t) rest); auto.
      * rewrite Hs, Hr. now rewrite app_assoc.
      * rewrite len_app. lia.
      * assert (List.length (c :: r) = (List.length t + List.length rest)%nat) by (rewrite Hr; apply app_length).
        destruct t; [congruence|]. cbn in *. lia.
Qed.

Lemma values_tokens md ms ts : Tokens ms ts -> values md ms = map try_from ts.
Proof. intros. unfold values, items. cbn [ms_new ms_str]. apply (items_tokens md ms _ [] ms); auto. Qed.

(** The same with the states, for users of the iterator that remember it. *)
Lemma items_cons md s a t rest ts :
  s = a ++ t ++ rest -> Token t rest -> Tokens rest ts ->
  forall fuel, (List.length (t ++ rest) < fuel)%nat ->
  exists fuel', (List.length rest < fuel')%nat /\
  items_fuel md fuel (mkMS s (len a))
  = (try_from t, mkMS s (len (a ++ t))) :: items_fuel md fuel' (mkMS s (len (a ++ t))).
Proof.
  intros Hs HTk HT fuel Hf. destruct fuel as [|f]; [lia|].
  exists f. pose proof (Token_nonempty _ _ HTk) as Hne.
  split. { rewrite app_length in Hf. destruct t; [congruence|]. cbn in Hf. lia. }
  cbn [items_fuel].
  destruct (next_slice_token md s (len a) a (t ++ rest)) as (t' & rest' & Hr & Ht & HTk' & E); auto.
  { destruct t; [congruence|discriminate]. }
  destruct (Token_unique _ _ _ _ HTk HTk' Hr) as [<- <-]. rewrite E. now rewrite len_app.
Qed.

Lemma Tokens_exists s : exists ts, Tokens s ts.
Proof. destruct (split_tokens Debug s) as (ts & _ & H). eauto. Qed.
