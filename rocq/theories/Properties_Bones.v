(** Property C94: patterns with the same layout. *)

From Coq Require Import String Lia.
From Verif Require Import Base Str Multi Color Raster Font Graphic Config Sign Pattern
  Spec_Multi Spec_Color Spec_Font Spec_Graphic Spec_Sign Spec_Render Spec_Layout Spec_Page Spec_Pattern Spec_Bones
  Proofs_Str Proofs_Norm Proofs_Pattern Proofs_Bones Examples_Sign Properties_Render Properties_Layout Properties_Page Properties_Pattern.
Open Scope list_scope.

Theorem c94_widths : forall md d a b rs rs', Meaning a rs -> Meaning b rs' -> SameLayout d rs rs' ->
  pat_widths md d a = pat_widths md d b.
Proof. exact layout_widths. Qed.
Print Assumptions c94_widths.

(** Colours, justification and malformed tags left out, other text. *)
Definition bn_a : str := lit "[cf1]A[nl]B[np][jl3][zz][tr1,1,20,6][fo1][np]".
Definition bn_b : str := lit "C[np][tr1,1,20,6][fo1][pt5][np]".

Example c94_example : exists rs rs', Meaning bn_a rs /\ Meaning bn_b rs' /\ SameLayout lx_d rs rs'
  /\ rs <> rs' /\ exists x l, pat_widths Debug lx_d bn_a = Val (x :: l).
Proof.
  assert (S : forall v, supp lx_d v = true -> Supports lx_d v) by (intros v; apply supp_iff).
  eexists _, _. split; [apply (values_meaning Debug); instantiate (1 := [Ok _; Ok _; Ok _; Ok _; Ok _; Ok _; Err _; Ok _; Ok _; Ok _]); vm_compute; reflexivity|].
  split; [apply (values_meaning Debug); instantiate (1 := [Ok _; Ok _; Ok _; Ok _; Ok _; Ok _]); vm_compute; reflexivity|].
  split; [|split; [discriminate|eexists _, _; vm_compute; reflexivity]].
  apply Sl_left; [right; exact I|]. apply Sl_more; [exact I|exact I|now apply S|now apply S|].
  apply Sl_more; [exact I|exact I|now apply S|now apply S|]. apply Sl_room; [exact I|exact I|now apply S|now apply S|].
  apply Sl_same. apply Sl_left; [right; exact I|]. apply Sl_left; [exact I|]. apply Sl_same, Sl_same.
  apply Sl_right; [right; exact I|]. apply Sl_same, Sl_nil.
Qed.

(** Text does make a difference. *)
Theorem c94_text : exists d, forall md, pat_widths md d (lit "A") <> pat_widths md d [].
Proof. exists lx_d. intros []; vm_compute; discriminate. Qed.
Print Assumptions c94_text.
