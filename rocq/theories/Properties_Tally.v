(** Property C95: as many lines as widths. *)

From Coq Require Import String Lia.
From Verif Require Import Base Str Multi Color Raster Font Graphic Config Sign Pattern
  Spec_Multi Spec_Color Spec_Font Spec_Graphic Spec_Sign Spec_Render Spec_Layout Spec_Page Spec_Pattern
  Proofs_Str Proofs_Norm Proofs_Tally Proofs_Given Examples_Sign Properties_Render Properties_Layout Properties_Page Properties_Pattern.
Open Scope list_scope.

(** A message cut by a pattern gives no line, or one for each width. *)
Theorem c95_count : forall md md' d pattern ms rs ws ls, Built d -> Meaning pattern rs -> pat_widths md d pattern = Val ws ->
  pat_lines md' d pattern ms = Val ls -> ls = [] \/ List.length ls = List.length ws.
Proof. exact lines_tally. Qed.
Print Assumptions c95_count.

(** Its lines fill the pattern: more of them have no effect. *)
Theorem c95_refill : forall md d pattern ms rs ws ls more, Built d -> Meaning pattern rs -> pat_widths md d pattern = Val ws ->
  pat_lines md d pattern ms = Val ls -> ls <> [] -> pat_fill md d pattern (ls ++ more) = pat_fill md d pattern ls.
Proof.
  intros md d pattern ms rs ws ls more HB HM EW EL N. destruct (lines_tally _ _ _ _ _ _ _ _ HB HM EW EL) as [E|E]; [contradiction|].
  eapply fill_extra; [exact EW|]. cbn [List.length]. lia.
Qed.
Print Assumptions c95_refill.

Definition ty_lines : list str := [lit "C"; lit "[cf1]D"; []].

(** A message that fits, with a line missing; one that does not fit. *)
Example c95_example : Built lx_d /\ Meaning (lit "A[np]") (map Ok [VText (lit "A"); VNewPage])
  /\ forall md, pat_widths md lx_d (lit "A[np]") = Val [(20, 1, 0); (20, 1, 0); (20, 1, 0)]
    /\ pat_lines md lx_d (lit "A[np]") (lit "A[np]C[nl][cf1]D") = Val ty_lines
    /\ pat_lines md lx_d (lit "A[np]") (lit "A[np]C[nl]D[nl]E[nl]F") = Val [lit "C"; lit "D"; lit "E"]
    /\ pat_lines md lx_d (lit "A[np]") (lit "B[np]C") = Val [].
Proof.
  split; [exact (proj1 px_sign)|]. split; [apply (values_meaning Debug); reflexivity|].
  intros []; repeat split; vm_compute; reflexivity.
Qed.
