(** Property C79: text rectangles apart from each other. *)

From Coq Require Import String Lia.
From Verif Require Import Base Str Multi Color Raster Font Graphic Config Sign Render
  Spec_Multi Spec_Color Spec_Sign Spec_Render Spec_Layout Spec_Draw Spec_Page Spec_Overlap Spec_Fail Spec_Swap
  Proofs_Str Proofs_Norm Proofs_Sign Proofs_Pages Proofs_Modes Proofs_Unique Proofs_Overlap Proofs_Swap
  Examples_Sign Properties_Render Properties_Layout Properties_Page.
Open Scope list_scope.

(** When neighbouring text rectangles without a common pixel change places, each
    with its texts, pages stay the same: as long as the first message gives only
    pages, the second gives pages with the same durations, sizes and pixels, and
    ends with it.  The texts of each rectangle leave colour, font, justification,
    spacing and line spacing as they find them; another text rectangle follows, or
    the end of a page without a blank page after it. *)
Theorem c79_swapped : forall d ms ms' vs ws n ps, Built d -> Usable d -> FontsInCells d ->
  Meaning ms (map Ok vs) -> Meaning ms' (map Ok ws) -> Swapped d [] [] vs ws ->
  pages_take Debug d n (pages_new d ms) = Val (map Ok ps) ->
  exists qs, pages_take Debug d n (pages_new d ms') = Val (map Ok qs) /\ Forall2 SamePage ps qs.
Proof. exact swapped. Qed.
Print Assumptions c79_swapped.

(** Whole messages, in both builds where no number wraps around. *)
Theorem c79_whole : forall md d ms ms' vs ws ps, Built d -> Usable d -> FontsInCells d ->
  Meaning ms (map Ok vs) -> Meaning ms' (map Ok ws) -> Swapped d [] [] vs ws ->
  (md = Release -> ~ Wraps d ms) -> Yields md d ms (map Ok ps) ->
  exists qs, Yields md d ms' (map Ok qs) /\ Forall2 SamePage ps qs.
Proof. exact swapped_whole. Qed.
Print Assumptions c79_whole.

(** Two halves of a sign, with text in two colours on the left and centred text on
    the right. *)
Definition ex_halves : list Value :=
  [VColorForeground (Some (Legacy 4)); VTextRectangle (mkRect 1 1 10 12); VText (lit "A"); VColorForeground (Some (Legacy 9)); VText (lit "B"); VColorForeground (Some (Legacy 4));
   VTextRectangle (mkRect 11 1 0 0); VJustificationLine (Some JlCenter); VText (lit "B"); VNewLine None; VText (lit "A"); VJustificationLine None; VNewPage; VText (lit "B")].
Definition ex_swapped : list Value :=
  [VColorForeground (Some (Legacy 4));
   VTextRectangle (mkRect 11 1 0 0); VJustificationLine (Some JlCenter); VText (lit "B"); VNewLine None; VText (lit "A"); VJustificationLine None;
   VTextRectangle (mkRect 1 1 10 12); VText (lit "A"); VColorForeground (Some (Legacy 9)); VText (lit "B"); VColorForeground (Some (Legacy 4)); VNewPage; VText (lit "B")].
Definition ex_halves_ms : str := lit "[cf4][tr1,1,10,12]A[cf9]B[cf4][tr11,1,0,0][jl3]B[nl]A[jl][np]B".
Definition ex_swapped_ms : str := lit "[cf4][tr11,1,0,0][jl3]B[nl]A[jl][tr1,1,10,12]A[cf9]B[cf4][np]B".

Example c79_example : Built lx_d /\ Usable lx_d /\ FontsInCells lx_d
  /\ Meaning ex_halves_ms (map Ok ex_halves) /\ Meaning ex_swapped_ms (map Ok ex_swapped) /\ Swapped lx_d [] [] ex_halves ex_swapped
  /\ shapes (pages_take Debug lx_d 9 (pages_new lx_d ex_halves_ms)) = Val [ShPage 20 12 30; ShPage 20 12 30].
Proof.
  destruct px_sign as (HB & HU & HF & _). split; [exact HB|]. split; [exact HU|]. split; [exact HF|].
  split; [apply (values_meaning Debug); vm_compute; reflexivity|].
  split; [apply (values_meaning Debug); vm_compute; reflexivity|].
  split; [|vm_compute; reflexivity].
  unfold ex_halves, ex_swapped. apply Sw_keep; [discriminate|].
  apply (Sw_rects lx_d [] _ (mkRect 1 1 10 12) (mkRect 11 1 0 0) [VText (lit "A"); VColorForeground (Some (Legacy 9)); VText (lit "B"); VColorForeground (Some (Legacy 4))]
    [VJustificationLine (Some JlCenter); VText (lit "B"); VNewLine None; VText (lit "A"); VJustificationLine None]).
  - repeat constructor.
  - repeat constructor.
  - repeat split.
  - repeat split.
  - split; [|split].
    + unfold GoodTextRect, on_boundary. cbn. splits; first [lia | now left].
    + unfold GoodTextRect, on_boundary. cbn. splits; first [lia | now left].
    + intros x y [H K]. unfold InRect in *. cbn in *. lia.
  - right. split; [right; eexists; reflexivity|reflexivity].
  - apply Sw_page. apply Sw_keep; [discriminate|]. constructor.
Qed.

(** Text rectangles with a pixel in common may not change places. *)
Theorem c79_over : exists d ms ms' r s s' p q, Forall tame s /\ Forall tame s' /\ Alike d [] [] s /\ Alike d [] [] s'
  /\ Meaning ms (map Ok (VTextRectangle r :: s ++ VTextRectangle r :: s')) /\ Meaning ms' (map Ok (VTextRectangle r :: s' ++ VTextRectangle r :: s))
  /\ pages_take Debug d 9 (pages_new d ms) = Val [Ok p] /\ pages_take Debug d 9 (pages_new d ms') = Val [Ok q]
  /\ pg_raster p <> pg_raster q.
Proof.
  set (ms := lit "[tr1,1,9,9][cf4]A[cf][tr1,1,9,9]A"). set (ms' := lit "[tr1,1,9,9]A[tr1,1,9,9][cf4]A[cf]").
  destruct (pixel_of_val (pages_take Debug lx_d 9 (pages_new lx_d ms)) 1 0 (255, 208, 0)) as (p & H & E); [vm_compute; reflexivity|].
  destruct (pixel_of_val (pages_take Debug lx_d 9 (pages_new lx_d ms')) 1 0 (0, 255, 255)) as (q & H' & E'); [vm_compute; reflexivity|].
  exists lx_d, ms, ms', (mkRect 1 1 9 9), [VColorForeground (Some (Legacy 4)); VText (lit "A"); VColorForeground None], [VText (lit "A")], p, q.
  splits; try exact H; try exact H'.
  - repeat constructor.
  - repeat constructor.
  - repeat split.
  - repeat split.
  - apply (values_meaning Debug). vm_compute. reflexivity.
  - apply (values_meaning Debug). vm_compute. reflexivity.
  - intros EQ. rewrite EQ, E' in E. discriminate E.
Qed.
Print Assumptions c79_over.

(** Where a blank page follows they may not either: it has the size of the last
    text rectangle. *)
Theorem c79_blank : exists d ms ms' v r r' s s', Forall tame s /\ Forall tame s' /\ Alike d [] [] s /\ Alike d [] [] s' /\ RectsApart d r r'
  /\ Meaning ms (map Ok (v :: VTextRectangle r :: s ++ VTextRectangle r' :: s')) /\ Meaning ms' (map Ok (v :: VTextRectangle r' :: s' ++ VTextRectangle r :: s))
  /\ shapes (pages_take Debug d 9 (pages_new d ms)) = Val [ShPage 20 12 10; ShPage 9 7 10]
  /\ shapes (pages_take Debug d 9 (pages_new d ms')) = Val [ShPage 20 12 10; ShPage 8 5 10].
Proof.
  exists lx_d, (lit "[pt10o10][tr1,1,8,5]A[tr11,1,9,7]B"), (lit "[pt10o10][tr11,1,9,7]B[tr1,1,8,5]A"), (VPageTime (Some 10) (Some 10)),
    (mkRect 1 1 8 5), (mkRect 11 1 9 7), [VText (lit "A")], [VText (lit "B")].
  splits.
  - repeat constructor.
  - repeat constructor.
  - repeat split.
  - repeat split.
  - split; [|split].
    + unfold GoodTextRect, on_boundary. cbn. splits; first [lia | now left].
    + unfold GoodTextRect, on_boundary. cbn. splits; first [lia | now left].
    + intros x y [H K]. unfold InRect in *. cbn in *. lia.
  - apply (values_meaning Debug). vm_compute. reflexivity.
  - apply (values_meaning Debug). vm_compute. reflexivity.
  - vm_compute. reflexivity.
  - vm_compute. reflexivity.
Qed.
Print Assumptions c79_blank.
