(** Property C80: text rectangles without text. *)

From Coq Require Import String Lia.
From Verif Require Import Base Str Multi Color Raster Font Graphic Config Sign Render
  Spec_Multi Spec_Color Spec_Sign Spec_Render Spec_Page Spec_Hollow
  Proofs_Str Proofs_Norm Proofs_Hollow Examples_Sign Properties_Render Properties_Layout.
Open Scope list_scope.

(** Text rectangles with neither text, new lines nor pictures before the next text
    rectangle may be left out, and the tags in them kept: as long as the first
    message gives only pages, the second gives the same pages, and ends with it. *)
Theorem c80_less : forall md d ms ms' vs ws n ps, Meaning ms (map Ok vs) -> Meaning ms' (map Ok ws) -> LessHollow vs ws ->
  pages_take md d n (pages_new d ms) = Val (map Ok ps) -> pages_take md d n (pages_new d ms') = Val (map Ok ps).
Proof. exact less_hollow. Qed.
Print Assumptions c80_less.

(** One at the start of a page, one with a colour, and one that stays. *)
Definition ex_hollow : list Value :=
  [VTextRectangle (mkRect 1 1 0 0); VTextRectangle (mkRect 1 1 10 12); VText (lit "A"); VTextRectangle (mkRect 3 3 1 1); VColorForeground (Some (Legacy 4));
   VTextRectangle (mkRect 11 1 0 0); VText (lit "B")].
Definition ex_less : list Value :=
  [VTextRectangle (mkRect 1 1 10 12); VText (lit "A"); VColorForeground (Some (Legacy 4)); VTextRectangle (mkRect 11 1 0 0); VText (lit "B")].
Definition ex_hollow_ms : str := lit "[tr1,1,0,0][tr1,1,10,12]A[tr3,3,1,1][cf4][tr11,1,0,0]B".
Definition ex_less_ms : str := lit "[tr1,1,10,12]A[cf4][tr11,1,0,0]B".

Example c80_example : Meaning ex_hollow_ms (map Ok ex_hollow) /\ Meaning ex_less_ms (map Ok ex_less) /\ LessHollow ex_hollow ex_less
  /\ shapes (pages_take Debug lx_d 9 (pages_new lx_d ex_hollow_ms)) = Val [ShPage 20 12 30].
Proof.
  split; [apply (values_meaning Debug); vm_compute; reflexivity|].
  split; [apply (values_meaning Debug); vm_compute; reflexivity|].
  split; [|vm_compute; reflexivity].
  apply (Lh_drop [] (mkRect 1 1 0 0) [] (mkRect 1 1 10 12)); [constructor|].
  apply (Lh_drop [VTextRectangle (mkRect 1 1 10 12); VText (lit "A")] (mkRect 3 3 1 1) [VColorForeground (Some (Legacy 4))] (mkRect 11 1 0 0)); [repeat constructor|].
  apply Lh_same.
Qed.

(** Not so with new lines, which may move the texts before. *)
Theorem c80_lines : exists d ms ms' v t r r' p q,
  Meaning ms (map Ok [v; VText t; VTextRectangle r; VNewLine None; VNewLine None; VTextRectangle r']) /\ Meaning ms' (map Ok [v; VText t; VNewLine None; VNewLine None; VTextRectangle r'])
  /\ pages_take Debug d 9 (pages_new d ms) = Val [Ok p] /\ pages_take Debug d 9 (pages_new d ms') = Val [Ok q]
  /\ pg_raster p <> pg_raster q.
Proof.
  set (ms := lit "[jp4]A[tr1,1,0,0][nl][nl][tr1,1,1,1]"). set (ms' := lit "[jp4]A[nl][nl][tr1,1,1,1]").
  destruct (pixel_of_val (pages_take Debug lx_d 9 (pages_new lx_d ms)) 1 9 (255, 208, 0)) as (p & H & E); [vm_compute; reflexivity|].
  destruct (pixel_of_val (pages_take Debug lx_d 9 (pages_new lx_d ms')) 1 9 (0, 0, 0)) as (q & H' & E'); [vm_compute; reflexivity|].
  exists lx_d, ms, ms', (VJustificationPage (Some JpBottom)), (lit "A"), (mkRect 1 1 0 0), (mkRect 1 1 1 1), p, q.
  splits; try exact H; try exact H'.
  - apply (values_meaning Debug). vm_compute. reflexivity.
  - apply (values_meaning Debug). vm_compute. reflexivity.
  - intros EQ. rewrite EQ, E' in E. discriminate E.
Qed.
Print Assumptions c80_lines.

(** Nor for the last text rectangle of a page with a blank page after it, which has
    its size. *)
Theorem c80_last : exists d ms ms' v t r, Meaning ms (map Ok [v; VText t; VTextRectangle r]) /\ Meaning ms' (map Ok [v; VText t])
  /\ shapes (pages_take Debug d 9 (pages_new d ms)) = Val [ShPage 20 12 10; ShPage 9 7 10]
  /\ shapes (pages_take Debug d 9 (pages_new d ms')) = Val [ShPage 20 12 10; ShPage 20 12 10].
Proof.
  exists lx_d, (lit "[pt10o10]A[tr1,1,9,7]"), (lit "[pt10o10]A"), (VPageTime (Some 10) (Some 10)), (lit "A"), (mkRect 1 1 9 7).
  splits; [apply (values_meaning Debug); vm_compute; reflexivity|apply (values_meaning Debug); vm_compute; reflexivity|vm_compute; reflexivity|vm_compute; reflexivity].
Qed.
Print Assumptions c80_last.
