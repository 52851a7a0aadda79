(** Property C93: the first pages of a pattern. *)

From Coq Require Import String Lia.
From Verif Require Import Base Str Multi Color Raster Font Graphic Config Sign Pattern
  Spec_Multi Spec_Color Spec_Font Spec_Graphic Spec_Sign Spec_Render Spec_Layout Spec_Page Spec_Pattern
  Proofs_Str Proofs_Norm Proofs_Sheets Examples_Sign Properties_Render Properties_Layout Properties_Page Properties_Pattern.
Open Scope list_scope.

(** The widths of a pattern start with those of its first pages alone. *)
Theorem c93_widths : forall md d a ms rs rs' w ws, Built d -> Lists d TNp -> Meaning a rs -> Meaning ms (rs ++ Ok VNewPage :: rs') ->
  pat_widths md d a = Val w -> pat_widths md d ms = Val ws -> exists more, ws = w ++ more.
Proof. exact widths_sheets. Qed.
Print Assumptions c93_widths.

(** A filled pattern starts with its first pages filled alone, with the same lines. *)
Theorem c93_fill : forall md d a ms rs rs' lines s t, Built d -> Lists d TNp -> Meaning a rs -> Meaning ms (rs ++ Ok VNewPage :: rs') ->
  pat_fill md d a lines = Val s -> pat_fill md d ms lines = Val t -> t = [] \/ exists r, t = s ++ lit "[np]" ++ r.
Proof. exact fill_sheets. Qed.
Print Assumptions c93_fill.

Example c93_example : Built lx_d /\ Lists lx_d TNp
  /\ Meaning (lit "A[np]") (map Ok [VText (lit "A"); VNewPage])
  /\ Meaning (lit "A[np][np]B[np]") (map Ok [VText (lit "A"); VNewPage] ++ Ok VNewPage :: map Ok [VText (lit "B"); VNewPage])
  /\ forall md, pat_widths md lx_d (lit "A[np]") = Val [(20, 1, 0); (20, 1, 0); (20, 1, 0)]
    /\ pat_widths md lx_d (lit "A[np][np]B[np]") = Val ([(20, 1, 0); (20, 1, 0); (20, 1, 0)] ++ [(20, 1, 1); (20, 1, 1); (20, 1, 1)])
    /\ pat_fill md lx_d (lit "A[np]") (map lit ["C"; "D"; "E"; "F"]%string) = Val (lit "A[np]C[nl]D[nl]E")
    /\ pat_fill md lx_d (lit "A[np][np]B[np]") (map lit ["C"; "D"; "E"; "F"]%string)
       = Val (lit "A[np]C[nl]D[nl]E" ++ lit "[np]" ++ lit "B[np]F").
Proof.
  split; [exact (proj1 px_sign)|]. split; [apply Proofs_Pattern.lists_np; reflexivity|].
  split; [apply (values_meaning Debug); reflexivity|]. split; [apply (values_meaning Debug); reflexivity|].
  intros []; repeat split; vm_compute; reflexivity.
Qed.

(** A text rectangle after the first page does take its lines away. *)
Theorem c93_rectangle : exists d a b, forall md, exists w ws, pat_widths md d a = Val w /\ pat_widths md d (a ++ b) = Val ws
  /\ ~ exists more, ws = w ++ more.
Proof.
  exists lx_d, [], (lit "[tr1,1,20,6]"). intros md.
  exists [(20, 1, 0); (20, 1, 0); (20, 1, 0)]. eexists. split; [destruct md; vm_compute; reflexivity|].
  split; [destruct md; vm_compute; reflexivity|]. intros (more & E). apply (f_equal (@List.length _)) in E. revert E.
  rewrite app_length. cbn. lia.
Qed.
Print Assumptions c93_rectangle.
