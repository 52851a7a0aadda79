(** Messages put together. *)

From Coq Require Import String Lia.
From Verif Require Import Base Str Multi Spec_Multi Spec_Seam Proofs_Str Proofs_Split Proofs_Norm.
Open Scope list_scope.

Lemma token_app t c r b : Token t (c :: r) -> Token t (c :: r ++ b).
Proof.
  intros H. inversion H as [?|?|? ? ?|b0 ? P O E|? N|? ? NE P O]; subst; try constructor; auto.
  - destruct O as [O|(x & O)]; [discriminate O|]. injection O as -> ->. right. eauto.
  - intros E'. discriminate (E E').
  - intros x E. injection E as -> _. now apply (N r).
  - destruct O as [O|(x & y & O & B)]; [discriminate O|]. injection O as <- <-. right. eauto.
Qed.

Lemma tokens_nil ts : Tokens [] ts -> ts = [].
Proof. intros H. apply (Tokens_unique [] ts []); [exact H|constructor]. Qed.

Lemma tokens_seam a ts : Tokens a ts -> forall b us, Tokens b us -> (ts = [] \/ exists ts' t, ts = ts' ++ [t] /\ Token t b) -> Tokens (a ++ b) (ts ++ us).
Proof.
  induction 1 as [|t rest ts HT HTs IH]; intros b us HB HS; [exact HB|]. destruct HS as [HS|(ts' & t' & E & HL)]; [discriminate HS|].
  rewrite <- app_assoc. cbn [app]. destruct ts as [|t1 ts].
  - assert (E' : ts' = [] /\ t' = t). { destruct ts' as [|? [|? ?]]; cbn in E; [|discriminate E|discriminate E]. injection E as <-. auto. } destruct E' as [-> ->].
    assert (ER : rest = []) by (inversion HTs; reflexivity). subst rest. cbn [app]. now constructor.
  - destruct rest as [|c r]; [apply tokens_nil in HTs; discriminate HTs|]. apply (Tks_cons t ((c :: r) ++ b)); [now apply token_app|].
    apply IH; [exact HB|]. right. destruct ts' as [|x ts']; [discriminate E|]. injection E as -> E. eauto.
Qed.

Lemma tokens_last ts : forall a b us, Tokens a ts -> Tokens (a ++ b) (ts ++ us) -> ts = [] \/ exists ts' t, ts = ts' ++ [t] /\ Token t b.
Proof.
  induction ts as [|t ts IH]; intros a b us HA HB; [now left|]. right. inversion HA as [|? rest ? HT HTs]; subst.
  rewrite <- app_assoc in HB. cbn [app] in HB. inversion HB as [|? rest' ? HT' HTs' ES]; subst. apply app_inv_head in ES. subst rest'.
  destruct (IH rest b us HTs HTs') as [->|(ts' & t' & -> & HL)].
  - assert (rest = []) by (inversion HTs; reflexivity). subst rest. exists [], t. auto.
  - exists (t :: ts'), t'. auto.
Qed.

Lemma seam_iff a b ts : Tokens a ts -> (Seam a b <-> ts = [] \/ exists ts' t, ts = ts' ++ [t] /\ Token t b).
Proof.
  intros H. split.
  - intros [->|(ts' & t & H' & HT)]; [left; now apply tokens_nil|]. right. exists ts', t. split; [|exact HT]. exact (Tokens_unique _ _ _ H H').
  - intros [->|(ts' & t & -> & HT)]; [left; inversion H; reflexivity|right; eauto].
Qed.

Lemma split_seam md a b ts us : split md a = Val ts -> split md b = Val us -> (split md (a ++ b) = Val (ts ++ us) <-> Seam a b).
Proof.
  rewrite !split_iff. intros HA HB. rewrite (seam_iff a b ts HA). split.
  - intros H. exact (tokens_last _ _ _ _ HA H).
  - intros H. now apply tokens_seam.
Qed.

Lemma values_seam md a b : Seam a b -> values md (a ++ b) = values md a ++ values md b.
Proof.
  intros HS. destruct (Tokens_exists a) as (ts & HA). destruct (Tokens_exists b) as (us & HB).
  rewrite (values_tokens md a ts HA), (values_tokens md b us HB), <- map_app. apply values_tokens. apply tokens_seam; auto. now apply (seam_iff a b ts).
Qed.

Lemma meaning_seam a b rs rs' : Seam a b -> Meaning a rs -> Meaning b rs' -> Meaning (a ++ b) (rs ++ rs').
Proof. intros HS HA HB. apply (values_meaning Debug). rewrite values_seam, map_app by auto. apply (values_meaning Debug) in HA, HB. now rewrite HA, HB. Qed.

Lemma blank_seam md a b x y : Seam a b -> is_blank md a = Val x -> is_blank md b = Val y -> is_blank md (a ++ b) = Val (x && y).
Proof.
  intros HS. unfold is_blank. rewrite values_seam by auto. intros HA HB. revert HA. induction (values md a) as [|m l IH]; cbn [app all_blank]; [intros E; injection E as <-; exact HB|].
  destruct m as [[v|e]| |]; cbn [bind]; try discriminate; [destruct (value_is_blank v); auto|]; intros E; injection E as <-; reflexivity.
Qed.

Lemma spans_seam md a b l k : Seam a b -> text_spans md a = Val l -> text_spans md b = Val k -> text_spans md (a ++ b) = Val (l ++ k).
Proof.
  intros HS. unfold text_spans. rewrite values_seam by auto. intros HA HB. revert l HA. induction (values md a) as [|m xs IH]; intros l; cbn [app spans_of]; [intros E; injection E as <-; exact HB|].
  destruct m as [[v|e]| |]; cbn [bind]; try discriminate; [destruct v; auto|auto]. intros E. destruct (spans_of xs) as [l1| |]; try discriminate E. cbn [bind] in E. injection E as <-.
  rewrite (IH l1 eq_refl). reflexivity.
Qed.

Lemma join_app sep l k : l <> [] -> k <> [] -> join sep (l ++ k) = join sep l ++ sep ++ join sep k.
Proof.
  intros HL HK. induction l as [|x l IH]; [congruence|]. destruct l as [|y l].
  - cbn [app join]. destruct k; [congruence|]. reflexivity.
  - cbn [app join] in *. rewrite IH by discriminate. now rewrite <- !app_assoc.
Qed.

Lemma joined_seam md a b sep s s' l k : Seam a b -> text_spans md a = Val l -> text_spans md b = Val k ->
  join_text md a sep = Val s -> join_text md b sep = Val s' ->
  (l = [] -> join_text md (a ++ b) sep = Val s') /\ (k = [] -> join_text md (a ++ b) sep = Val s)
  /\ (l <> [] -> k <> [] -> join_text md (a ++ b) sep = Val (s ++ sep ++ s')).
Proof.
  intros HS HA HB. unfold join_text. rewrite (spans_seam md a b l k HS HA HB), HA, HB. cbn [bind]. intros E1 E2. injection E1 as <-. injection E2 as <-.
  splits; intros; subst; cbn [app]; rewrite ?app_nil_r; auto. now rewrite join_app.
Qed.

(** Text at both sides of a seam. *)
Lemma split_merged md a b ts t u us : split md a = Val (ts ++ [t]) -> split md b = Val (u :: us) ->
  t <> [] -> u <> [] -> plain t -> plain u -> split md (a ++ b) = Val (ts ++ [t ++ u] ++ us).
Proof.
  rewrite !split_iff. intros HA HB NT NU PT PU.
  inversion HB as [|? rest ? HU HUs]; subst.
  assert (BR : at_boundary rest).
  { inversion HU as [?|?|x ? ?|x ? P O E|? N|? ? NE P O]; subst; auto; exfalso; inversion PU as [|? ? [X Y] ?]; subst; congruence. }
  assert (HTU : Token (t ++ u) rest).
  { constructor; [intros E; apply app_eq_nil in E as [E _]; congruence|now apply Forall_app|exact BR]. }
  assert (GO : forall a, Tokens a (ts ++ [t]) -> Tokens (a ++ u ++ rest) (ts ++ [t ++ u] ++ us)).
  { clear HA a. induction ts as [|x ts IH]; intros a HA; cbn [app] in *.
    - inversion HA as [|? r0 ? H1 H2]; subst. assert (r0 = []) by (inversion H2; reflexivity). subst r0. rewrite app_nil_r, app_assoc. now constructor.
    - inversion HA as [|? r0 ? H1 H2]; subst. rewrite <- app_assoc. constructor; [|now apply IH].
      destruct r0 as [|c r0]; [apply tokens_nil in H2; destruct ts; discriminate H2|]. now apply token_app. }
  now apply GO.
Qed.

(** Anything may follow a tag that is not itself broken up. *)
Lemma seam_tag a body b : plain body -> Seam a (91 :: body ++ [93]) -> Seam (a ++ 91 :: body ++ [93]) b.
Proof.
  intros HP HS. destruct (Tokens_exists a) as (ts & HA). right. exists ts, (91 :: body ++ [93]). split; [|now constructor].
  apply tokens_seam; [exact HA| |now apply (seam_iff a _ ts)].
  rewrite <- (app_nil_r (91 :: body ++ [93])) at 1. constructor; [now constructor|constructor].
Qed.
