(** Property C91: normalizing messages put together. *)

From Coq Require Import String Lia.
From Verif Require Import Base Str Multi Spec_Multi Spec_Seam Spec_Rejoin Proofs_Str Proofs_Split Proofs_Norm Proofs_Seam Proofs_Rejoin.
Open Scope list_scope.

(** The normal form of the first message comes first. *)
Theorem c91_prefix : forall md a b s t s', Seam a b -> normalize md a = Val s -> normalize md b = Val t ->
  normalize md (a ++ b) = Val s' -> exists r, s' = s ++ r.
Proof. intros. eapply norm_prefix; eauto. Qed.
Print Assumptions c91_prefix.

(** It is all there is exactly when nothing of the second is shown. *)
Theorem c91_trail : forall md a b rs rs', Seam a b -> Meaning a rs -> Meaning b rs' ->
  (normalize md (a ++ b) = normalize md a <-> Forall (fun v => ~ Shown v) (oks rs')).
Proof. exact norm_trail. Qed.
Print Assumptions c91_trail.

(** The normal forms follow each other, when the first message ends with something
    shown and leaves no setting in force. *)
Theorem c91_both : forall md a b rs s t, Seam a b -> Meaning a rs -> EndsShown (oks rs) -> left_set (oks rs) = settings0 ->
  normalize md a = Val s -> normalize md b = Val t -> normalize md (a ++ b) = Val (s ++ t).
Proof. exact norm_both. Qed.
Print Assumptions c91_both.

(** The first message may be normalized before. *)
Theorem c91_first : forall md a b rs s t, Seam a b -> Seam s b -> Meaning a rs -> Forall small_hex (oks rs) -> EndsShown (oks rs) ->
  normalize md a = Val s -> normalize md b = Val t -> normalize md (s ++ b) = normalize md (a ++ b).
Proof. exact norm_first. Qed.
Print Assumptions c91_first.

(** Malformed pieces may be left out. *)
Theorem c91_errors : forall md a e b rs es rs', Seam a e -> Seam (a ++ e) b -> Seam a b ->
  Meaning a rs -> Meaning e es -> Meaning b rs' -> oks es = [] ->
  normalize md (a ++ e ++ b) = normalize md (a ++ b).
Proof. exact norm_errors. Qed.
Print Assumptions c91_errors.

(** Settings left in force make a tag of the second message redundant, and the second
    may not be normalized before. *)
Theorem c91_settings : exists a b s t u, Seam a b /\ Seam a t
  /\ (forall md, normalize md a = Val s /\ normalize md b = Val t /\ normalize md (a ++ b) = Val u
    /\ u <> s ++ t /\ normalize md (a ++ t) <> Val u).
Proof.
  exists (lit "[cf1]a[g1]"), (lit "[cf]b[cf1]c"), (lit "[cf1]a[g1]"), (lit "b[cf1]c"), (lit "[cf1]a[g1][cf]b[cf1]c").
  split; [apply (split_seam Debug _ _ [lit "[cf1]"; lit "a"; lit "[g1]"] [lit "[cf]"; lit "b"; lit "[cf1]"; lit "c"]); reflexivity|].
  split; [apply (split_seam Debug _ _ [lit "[cf1]"; lit "a"; lit "[g1]"] [lit "b"; lit "[cf1]"; lit "c"]); reflexivity|].
  intros []; repeat split; vm_compute; discriminate.
Qed.
Print Assumptions c91_settings.

Definition rj_a : str := lit "[fo2][fo2]a [jl3][nl][fo][jl][g1]".
Definition rj_b : str := lit "[fo][jl3]b [nl]".
Definition rj_ra : list Value := [VFont (Some (2, None)); VFont (Some (2, None)); VText (lit "a "); VJustificationLine (Some JlCenter);
  VNewLine None; VFont None; VJustificationLine None; VGraphic 1 None].

Example c91_example : Seam rj_a rj_b /\ Seam (lit "[fo2]a [jl3][nl][fo][jl][g1]") rj_b
  /\ Meaning rj_a (map Ok rj_ra) /\ EndsShown rj_ra /\ Forall small_hex rj_ra /\ left_set rj_ra = settings0
  /\ normalize Debug rj_a = Val (lit "[fo2]a [jl3][nl][fo][jl][g1]") /\ normalize Debug rj_b = Val (lit "[jl3]b ")
  /\ normalize Debug (rj_a ++ rj_b) = Val (lit "[fo2]a [jl3][nl][fo][jl][g1][jl3]b ").
Proof.
  split; [apply (split_seam Debug _ _ (map lit ["[fo2]"; "[fo2]"; "a "; "[jl3]"; "[nl]"; "[fo]"; "[jl]"; "[g1]"]%string)
    (map lit ["[fo]"; "[jl3]"; "b "; "[nl]"]%string)); reflexivity|].
  split; [apply (split_seam Debug _ _ (map lit ["[fo2]"; "a "; "[jl3]"; "[nl]"; "[fo]"; "[jl]"; "[g1]"]%string)
    (map lit ["[fo]"; "[jl3]"; "b "; "[nl]"]%string)); reflexivity|].
  split; [apply (values_meaning Debug); reflexivity|].
  split; [eexists _, (VGraphic 1 None); split; [unfold rj_ra; rewrite <- (app_nil_r [VGraphic 1 None]);
    exact (eq_refl (removelast rj_ra ++ [VGraphic 1 None]))|constructor]|].
  split; [repeat constructor|]. repeat split; reflexivity.
Qed.

(** A malformed tag in the middle. *)
Example c91_errors_example : Seam (lit "a[g1]") (lit "[zz]") /\ Seam (lit "a[g1][zz]") (lit "b")
  /\ Seam (lit "a[g1]") (lit "b") /\ (exists es, Meaning (lit "[zz]") es /\ oks es = [])
  /\ normalize Debug (lit "a[g1][zz]b") = Val (lit "a[g1]b").
Proof.
  split; [apply (split_seam Debug _ _ [lit "a"; lit "[g1]"] [lit "[zz]"]); reflexivity|].
  split; [apply (split_seam Debug _ _ [lit "a"; lit "[g1]"; lit "[zz]"] [lit "b"]); reflexivity|].
  split; [apply (split_seam Debug _ _ [lit "a"; lit "[g1]"] [lit "b"]); reflexivity|].
  split; [|reflexivity]. eexists. split; [apply (values_meaning Debug); instantiate (1 := [Err _]); reflexivity|reflexivity].
Qed.
