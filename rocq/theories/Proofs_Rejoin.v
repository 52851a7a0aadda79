(** Proofs for C91: normalizing messages put together. *)

From Coq Require Import String Lia.
From Verif Require Import Base Str Multi Spec_Multi Spec_Seam Spec_Rejoin Proofs_Str Proofs_Split Proofs_Norm Proofs_Seam.
From Verif Require Proofs_Same Proofs_Safe.
Open Scope list_scope.

Notation setf := (fun (s : Settings) (v : Value) => apply_setting v s).

Lemma strip_app a b : strip (a ++ b) = match strip b with [] => strip a | l => a ++ l end.
Proof.
  induction a as [|v a IH]; cbn [app strip]; [now destruct (strip b)|].
  rewrite IH. destruct (strip b) as [|x l]; auto. destruct (a ++ x :: l) eqn:E; auto. destruct a; discriminate.
Qed.

Lemma nvals_app a b : nvals (a ++ b) = match strip (dedup (left_set a) b) with
  | [] => nvals a | l => dedup settings0 a ++ l end.
Proof. unfold nvals, left_set. rewrite Proofs_Same.dedup_app. apply strip_app. Qed.

Lemma printed_app a b : printed (a ++ b) = printed a ++ printed b.
Proof. unfold printed. now rewrite map_app, concat_app. Qed.

Lemma norm_seam md a b rs rs' : Seam a b -> Meaning a rs -> Meaning b rs' ->
  normalize md (a ++ b) = Val (printed (nvals (oks rs ++ oks rs'))).
Proof.
  intros HS HA HB. rewrite (normalize_val md _ _ (meaning_seam _ _ _ _ HS HA HB)). now rewrite Proofs_Safe.oks_app.
Qed.

(** The first message comes out in front. *)
Lemma norm_prefix md a b s s' : Seam a b -> normalize md a = Val s -> normalize md (a ++ b) = Val s' ->
  (exists t, normalize md b = Val t) -> exists r, s' = s ++ r.
Proof.
  intros HS EA E (t & EB).
  destruct (normalize_val_inv _ _ _ EA) as (rs & HA & ->). destruct (normalize_val_inv _ _ _ EB) as (rs' & HB & ->).
  rewrite (norm_seam _ _ _ _ _ HS HA HB) in E. injection E as <-. rewrite nvals_app.
  destruct (strip _) as [|x l]; [exists []; now rewrite app_nil_r|].
  destruct (strip_split (dedup settings0 (oks rs))) as (tl & E & _).
  exists (printed tl ++ printed (x :: l)). rewrite E at 1. now rewrite !printed_app, <- app_assoc.
Qed.

(** Only what is not shown adds nothing at the end. *)
Lemma norm_trail md a b rs rs' : Seam a b -> Meaning a rs -> Meaning b rs' ->
  (normalize md (a ++ b) = normalize md a <-> Forall (fun v => ~ Shown v) (oks rs')).
Proof.
  intros HS HA HB. pose proof (Proofs_Safe.oks_value_ok _ _ HB) as O.
  rewrite (norm_seam _ _ _ _ _ HS HA HB), (normalize_val md _ _ HA), nvals_app, <- blank_iff_not_shown by auto. split.
  - intros E. injection E as E. destruct (strip (dedup _ (oks rs'))) as [|x l] eqn:ES; [eapply dedup_blank, strip_nil; eauto|].
    exfalso. destruct (strip_split (dedup settings0 (oks rs))) as (tl & ET & _).
    rewrite ET in E at 1. fold (nvals (oks rs)) in E. rewrite <- app_assoc, printed_app in E.
    rewrite <- app_nil_r in E. apply app_inv_head in E. rewrite printed_app in E. apply app_eq_nil in E as [_ E].
    apply printed_nil in E; [discriminate|]. rewrite <- ES, Forall_forall. intros v I.
    pose proof (oks_Parsable _ _ HB) as P. rewrite Forall_forall in P. eapply P, dedup_incl, strip_incl; eauto.
  - intros HN. rewrite strip_blank; auto. rewrite Forall_forall in *. intros v I. apply HN. eapply dedup_incl; eauto.
Qed.

Lemma ends_of a rs : Meaning a rs -> EndsShown (oks rs) -> ends_shown (oks rs).
Proof.
  intros HA (l & v & E & HV). right. exists l, v. split; auto. apply value_blank_iff; auto.
  pose proof (Proofs_Safe.oks_value_ok _ _ HA) as O. rewrite E in O. apply Forall_app in O as [_ O]. now inversion O.
Qed.

Lemma nvals_ended vs : ends_shown vs -> nvals vs = dedup settings0 vs.
Proof. intros H. apply strip_ends. now apply Proofs_Same.dedup_ends. Qed.

(** The normal forms follow each other. *)
Lemma norm_both md a b rs s t : Seam a b -> Meaning a rs -> EndsShown (oks rs) -> left_set (oks rs) = settings0 ->
  normalize md a = Val s -> normalize md b = Val t -> normalize md (a ++ b) = Val (s ++ t).
Proof.
  intros HS HA HE H0 EA EB. destruct (normalize_val_inv _ _ _ EB) as (rs' & HB & ->).
  rewrite (normalize_val md _ _ HA) in EA. injection EA as <-.
  rewrite (norm_seam _ _ _ _ _ HS HA HB), nvals_app, H0. fold (nvals (oks rs')).
  rewrite (nvals_ended _ (ends_of _ _ HA HE)).
  destruct (nvals (oks rs')) as [|x l]; [now rewrite app_nil_r|]. now rewrite printed_app.
Qed.

(** Malformed pieces may be left out. *)
Lemma norm_errors md a e b rs es rs' : Seam a e -> Seam (a ++ e) b -> Seam a b ->
  Meaning a rs -> Meaning e es -> Meaning b rs' -> oks es = [] ->
  normalize md (a ++ e ++ b) = normalize md (a ++ b).
Proof.
  intros S1 S3 S4 HA HE HB E0. rewrite app_assoc.
  rewrite (norm_seam md _ _ _ _ S3 (meaning_seam _ _ _ _ S1 HA HE) HB), (norm_seam md _ _ _ _ S4 HA HB).
  now rewrite Proofs_Safe.oks_app, E0, app_nil_r.
Qed.

Lemma set_dedup vs : forall s, fold_left setf (dedup s vs) s = fold_left setf vs s.
Proof.
  induction vs as [|v vs IH]; intros s; cbn [dedup fold_left]; auto. destruct (redundantb s v) eqn:E; cbn [fold_left]; auto.
  apply redundantb_iff in E as [_ E]. rewrite E. apply IH.
Qed.

Lemma set_merge vs : forall s, fold_left setf (merge vs) s = fold_left setf vs s.
Proof.
  induction vs as [|v vs IH]; intros s; auto.
  destruct v; try (cbn [merge fold_left]; apply IH). cbn [merge fold_left apply_setting]. rewrite <- IH.
  destruct (merge vs) as [|w l]; auto. destruct w; auto. destruct (_ && _); reflexivity.
Qed.

(** The first message may be normalized before. *)
Lemma norm_first md a b rs s t : Seam a b -> Seam s b -> Meaning a rs -> Forall small_hex (oks rs) -> EndsShown (oks rs) ->
  normalize md a = Val s -> normalize md b = Val t -> normalize md (s ++ b) = normalize md (a ++ b).
Proof.
  intros HS HS' HA HX HE EA EB. destruct (normalize_val_inv _ _ _ EB) as (rs' & HB & _).
  pose proof (normalize_meaning _ _ _ _ HA HX EA) as HM.
  rewrite (norm_seam md _ _ _ _ HS' HM HB), (norm_seam md _ _ _ _ HS HA HB), oks_map_Ok, !nvals_app, nvals_merge.
  pose proof (nvals_ended _ (ends_of _ _ HA HE)) as EN.
  assert (HP : Forall Parsable (nvals (oks rs))) by (apply nvals_Forall; eapply oks_Parsable; eauto).
  assert (ES : left_set (merge (nvals (oks rs))) = left_set (oks rs)).
  { unfold left_set. rewrite set_merge, EN. apply set_dedup. }
  rewrite ES. destruct (strip _) as [|x l]; [now rewrite merge_printed|].
  rewrite NoRedundant_dedup by apply merge_NoRedundant, nvals_NoRedundant.
  rewrite !printed_app, merge_printed by auto. now rewrite EN.
Qed.
