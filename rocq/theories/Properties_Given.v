(** Property C92: the lines given to a pattern. *)

From Coq Require Import String Lia.
From Verif Require Import Base Str Multi Color Font Config Sign Pattern Proofs_Given Examples_Sign Properties_Layout.
Open Scope list_scope.

(** Whether filling panics or does not end does not depend on the lines. *)
Theorem c92_kind : forall md d ms lines lines',
  (pat_fill md d ms lines = Panic <-> pat_fill md d ms lines' = Panic)
  /\ (pat_fill md d ms lines = Hang <-> pat_fill md d ms lines' = Hang).
Proof.
  intros. unfold pat_fill. pose proof (fill_alike d (pat_items md d ms) None lines lines' [] []) as H. unfold alike in H.
  destruct (fill_loop _ _ _ lines _), (fill_loop _ _ _ lines' _); try contradiction; split; split; congruence.
Qed.
Print Assumptions c92_kind.

(** When a pattern has widths, it can be filled. *)
Theorem c92_widths : forall md d ms ws lines, pat_widths md d ms = Val ws -> exists s, pat_fill md d ms lines = Val s.
Proof. intros. eapply widths_fill; eauto. Qed.
Print Assumptions c92_widths.

(** Lines beyond the widths have no effect. *)
Theorem c92_extra : forall md d ms ws lines more, pat_widths md d ms = Val ws -> (List.length ws <= List.length lines)%nat ->
  pat_fill md d ms (lines ++ more) = pat_fill md d ms lines.
Proof. intros. eapply fill_extra; eauto. Qed.
Print Assumptions c92_extra.

(** Every line with a width is written as it is, once; what comes before and after it
    does not depend on it (or the pattern is refused,
    whatever the lines). *)
Theorem c92_line : forall md d ms ws l1 l2, pat_widths md d ms = Val ws -> (List.length l1 < List.length ws)%nat ->
  (forall lines, pat_fill md d ms lines = Val [])
  \/ exists p q, forall x, pat_fill md d ms (l1 ++ x :: l2) = Val (p ++ x ++ q).
Proof.
  intros md d ms ws l1 l2 E H. destruct (fill_line md d _ 0 [] ws None l1 l2 E H) as [HN|(p & q & HP)].
  - left. intros lines. apply HN.
  - right. exists p, q. intros x. apply (HP x []).
Qed.
Print Assumptions c92_line.

Example c92_example : forall md,
  pat_widths md lx_d (lit "A[np]") = Val [(20, 1, 0); (20, 1, 0); (20, 1, 0)]
  /\ pat_fill md lx_d (lit "A[np]") ([lit "B"; lit "C"] ++ lit "D" :: [lit "E"]) = Val (lit "A[np]B[nl]C[nl]" ++ lit "D" ++ [])
  /\ pat_fill md lx_d (lit "A[bad]") [lit "B"] = Val [].
Proof. intros []; repeat split; vm_compute; reflexivity. Qed.

(** A missing line is not the same as an empty one. *)
Theorem c92_missing : exists d ms ws lines, forall md, pat_widths md d ms = Val ws
  /\ (List.length lines < List.length ws)%nat /\ pat_fill md d ms (lines ++ [[]]) <> pat_fill md d ms lines.
Proof.
  exists lx_d, (lit "A[np]"), [(20, 1, 0); (20, 1, 0); (20, 1, 0)], [lit "B"].
  intros []; (split; [vm_compute; reflexivity|split; [cbn; lia|vm_compute; discriminate]]).
Qed.
Print Assumptions c92_missing.
