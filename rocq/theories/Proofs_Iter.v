(** Where the [MultiStr] iterator stands, and what it yields from there. *)

From Verif Require Import Base Str Multi Spec_Multi Proofs_Str Proofs_Split Proofs_Tag Proofs_Print Proofs_Norm.

Definition Outcomes := list (M (result Value SyntaxError)).

(** The iterator stands just before the tokens [ts]. *)
Definition At (m : MultiStr) (ts : list str) : Prop :=
  exists a b, ms_str m = a ++ b /\ ms_off m = len a /\ Tokens b ts.

(** The iterator is going to yield [xs]. *)
Definition Reads (m : MultiStr) (xs : Outcomes) : Prop :=
  exists ts, At m ts /\ xs = map try_from ts.

Lemma items_fuel_enough md s a b fuel fuel' :
  s = a ++ b -> (List.length b < fuel)%nat -> (List.length b < fuel')%nat ->
  items_fuel md fuel (mkMS s (len a)) = items_fuel md fuel' (mkMS s (len a)).
Proof.
  destruct (Tokens_exists b) as (ts & HT).
  revert a fuel fuel'. induction HT as [|t rest ts HTk HT IH]; intros a fuel fuel' Hs Hf Hf'.
  - rewrite app_nil_r in Hs. subst a. destruct fuel; [lia|]. destruct fuel'; [cbn in *; lia|].
    cbn [items_fuel]. now rewrite next_slice_end.
  - destruct (items_cons md s a t rest ts Hs HTk HT fuel Hf) as (f1 & H1 & ->).
    destruct (items_cons md s a t rest ts Hs HTk HT fuel' Hf') as (f2 & H2 & ->).
    f_equal. apply IH; auto. rewrite Hs. now rewrite app_assoc.
Qed.

Lemma Reads_items m xs : Reads m xs ->
  match xs with
  | [] => forall md, items md m = []
  | x :: r => exists m', Reads m' r /\ ms_str m' = ms_str m
                /\ forall md, items md m = (x, m') :: items md m'
  end.
Proof.
  intros (ts & (a & b & Hs & Ho & HT) & ->). destruct m as [s off]. cbn [ms_str ms_off] in *.
  subst off. destruct HT as [|t rest ts HTk HT]; cbn [map].
  - intros md. rewrite app_nil_r in Hs. subst a. unfold items. cbn [items_fuel ms_str].
    now rewrite next_slice_end.
  - exists (mkMS s (len (a ++ t))). splits.
    + exists ts. split; auto. exists (a ++ t), rest. splits; auto. cbn [ms_str].
      rewrite Hs. now rewrite app_assoc.
    + reflexivity.
    + intros md. unfold items. cbn [ms_str].
      destruct (items_cons md s a t rest ts Hs HTk HT (S (List.length s))) as (f & Hf & ->).
      { rewrite Hs, !app_length. lia. }
      f_equal. apply (items_fuel_enough md s (a ++ t) rest); auto.
      * rewrite Hs. now rewrite app_assoc.
      * rewrite Hs, !app_length. lia.
Qed.

Lemma Reads_map md m xs : Reads m xs -> map fst (items md m) = xs.
Proof.
  revert m. induction xs as [|x xs IH]; intros m H; pose proof (Reads_items m _ H) as HR; cbn beta iota in HR.
  - now rewrite HR.
  - destruct HR as (m' & H' & _ & E). rewrite E. cbn [map fst]. f_equal. auto.
Qed.

Lemma Reads_fun m xs ys : Reads m xs -> Reads m ys -> xs = ys.
Proof. intros H H'. rewrite <- (Reads_map Debug m xs H). now apply Reads_map. Qed.

Lemma Reads_new ms ts : Tokens ms ts -> Reads (ms_new ms) (map try_from ts).
Proof. intros H. exists ts. split; auto. exists [], ms. splits; auto. Qed.

Lemma Reads_exists ms : exists xs, Reads (ms_new ms) xs.
Proof. destruct (Tokens_exists ms) as (ts & H). eexists. apply Reads_new; eauto. Qed.

Lemma Reads_meaning ms rs : Meaning ms rs -> Reads (ms_new ms) (map Val rs).
Proof.
  intros (ts & HT & HD). exists ts. split.
  - exists [], ms. splits; auto.
  - clear HT. induction HD as [|t r ts rs Hd HD IH]; cbn [map]; auto.
    rewrite (TokenDenotes_try _ _ Hd). now rewrite IH.
Qed.

(** Whatever is read is in range. *)
Lemma Reads_outcome m xs : Reads m xs ->
  Forall (fun x => x = Panic \/ exists r, x = Val r /\ match r with Ok v => value_ok v | Err _ => True end) xs.
Proof.
  intros (ts & (a & b & Hs & Ho & HT) & ->). clear Hs Ho.
  pose proof (parsed_in_range Debug b) as HR. rewrite (values_tokens Debug b ts HT) in HR.
  apply Tokens_Token in HT. apply Forall_forall. intros x Hx.
  assert (forall v, x = Val (Ok v) -> value_ok v) as HV by (intros v ->; apply HR; auto).
  apply in_map_iff in Hx as (t & <- & Ht). rewrite Forall_forall in HT.
  destruct (HT t Ht) as (rest & HTk).
  destruct (try_from_token t rest HTk) as [[_ E]|[_ (res & E & _)]]; rewrite E in *; auto.
  right. exists res. split; auto. destruct res; auto.
Qed.
