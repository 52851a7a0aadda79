(** Property C75: what the order of the values of a page matters for. *)

From Coq Require Import String.
From Verif Require Import Base Str Multi Color Raster Font Graphic Config Sign Render
  Spec_Multi Spec_Color Spec_Sign Spec_Render Spec_Sections
  Proofs_Str Proofs_Norm Proofs_Sign Proofs_Pages Proofs_Sections Examples_Sign Properties_Render Properties_Layout.
Open Scope list_scope.

(** Two messages of supported tags whose pages have the same colour and graphic
    tags in each section, the same text in each section, and the same page
    backgrounds and times, each in order, render alike: as long as the first has
    given only pages, the second has given the same pages, and what comes next is
    the same as well, be it a page, an error, a panic or the end. *)
Theorem c75_sections : forall md d ms ms' vs ws, Meaning ms (map Ok vs) -> Meaning ms' (map Ok ws) -> SamePages vs ws ->
  Forall (Supports d) vs -> Forall (Supports d) ws -> forall ps,
  pages_take md d (List.length ps) (pages_new d ms) = Val (map Ok ps) ->
  pages_take md d (List.length ps) (pages_new d ms') = Val (map Ok ps)
  /\ pages_take md d (S (List.length ps)) (pages_new d ms) = pages_take md d (S (List.length ps)) (pages_new d ms').
Proof. intros md d ms ms' vs ws. exact (reordered d md ms ms' vs ws). Qed.
Print Assumptions c75_sections.

(** So a colour rectangle or graphic may stand before or behind the text of its
    section, and page times and backgrounds anywhere on their page. *)
Definition ex_order : str := lit "[pt9][cr2,2,3,2,7]A[pb3][tr3,3,10,9][g1,9,7]B[np]A".
Definition ex_reorder : str := lit "[pb3]A[cr2,2,3,2,7][tr3,3,10,9]B[g1,9,7][pt9][np]A".
Definition ex_first : list Value :=
  [VPageTime (Some 9) None; VColorRectangle (mkRect 2 2 3 2) (Legacy 7); VText (lit "A"); VPageBackground (Some (Legacy 3))].
Definition ex_second : list Value := [VGraphic 1 (Some (9, 7, None)); VText (lit "B")].
Definition ex_rfirst : list Value :=
  [VPageBackground (Some (Legacy 3)); VText (lit "A"); VColorRectangle (mkRect 2 2 3 2) (Legacy 7)].
Definition ex_rsecond : list Value := [VText (lit "B"); VGraphic 1 (Some (9, 7, None)); VPageTime (Some 9) None].
Definition ex_all (a b : list Value) : list Value :=
  (a ++ VTextRectangle (mkRect 3 3 10 9) :: b) ++ VNewPage :: [VText (lit "A")].

Lemma lx_supports v : match v with VText _ | VColorRectangle _ _ | VGraphic _ _ | VPageTime _ _ | VPageBackground _ | VTextRectangle _ | VNewPage => True
  | _ => False end -> Supports lx_d v.
Proof. intros H t Ht. inversion Ht; subst; try contradiction; vm_compute; reflexivity. Qed.

Example c75_example : Meaning ex_order (map Ok (ex_all ex_first ex_second)) /\ Meaning ex_reorder (map Ok (ex_all ex_rfirst ex_rsecond))
  /\ SamePages (ex_all ex_first ex_second) (ex_all ex_rfirst ex_rsecond)
  /\ Forall (Supports lx_d) (ex_all ex_first ex_second) /\ Forall (Supports lx_d) (ex_all ex_rfirst ex_rsecond)
  /\ shapes (pages_take Debug lx_d 9 (pages_new lx_d ex_order)) = Val [ShPage 20 12 9; ShPage 20 12 9].
Proof.
  split; [apply (values_meaning Debug); vm_compute; reflexivity|].
  split; [apply (values_meaning Debug); vm_compute; reflexivity|].
  split.
  { unfold ex_all. apply Sp_break.
    - split; [|split; reflexivity]. apply Ss_rect; [|apply Ss_last]; (split; [|split; [|split]]); try reflexivity; repeat (constructor; [reflexivity|]); constructor.
    - apply Sp_last. split; [|split; reflexivity]. apply Ss_last. split; [|split; [|split]]; try reflexivity; repeat (constructor; [reflexivity|]); constructor. }
  split; [repeat (constructor; [apply lx_supports; exact I|]); constructor|].
  split; [repeat (constructor; [apply lx_supports; exact I|]); constructor|].
  vm_compute. reflexivity.
Qed.

(** A colour rectangle cannot be moved out of its section: behind a text
    rectangle it hides the text before it. *)
Theorem c75_rectangle : exists d ms ms' vs ws p q, Meaning ms (map Ok vs) /\ Meaning ms' (map Ok ws)
  /\ filter for_pictures vs = filter for_pictures ws /\ filter for_text vs = filter for_text ws
  /\ filter for_background vs = filter for_background ws /\ filter for_times vs = filter for_times ws
  /\ pages_take Debug d 9 (pages_new d ms) = Val [Ok p] /\ pages_take Debug d 9 (pages_new d ms') = Val [Ok q]
  /\ pg_raster p <> pg_raster q.
Proof.
  set (ms := lit "A[tr1,1,20,12][cr1,1,6,9,7]"). set (ms' := lit "A[cr1,1,6,9,7][tr1,1,20,12]").
  destruct (pixel_of_val (pages_take Debug lx_d 9 (pages_new lx_d ms)) 1 0 (255, 255, 255)) as (p & H & E); [vm_compute; reflexivity|].
  destruct (pixel_of_val (pages_take Debug lx_d 9 (pages_new lx_d ms')) 1 0 (255, 208, 0)) as (q & H' & E'); [vm_compute; reflexivity|].
  exists lx_d, ms, ms', [VText (lit "A"); VTextRectangle (mkRect 1 1 20 12); VColorRectangle (mkRect 1 1 6 9) (Legacy 7)],
    [VText (lit "A"); VColorRectangle (mkRect 1 1 6 9) (Legacy 7); VTextRectangle (mkRect 1 1 20 12)], p, q.
  splits; try reflexivity; try exact H; try exact H'.
  - apply (values_meaning Debug). vm_compute. reflexivity.
  - apply (values_meaning Debug). vm_compute. reflexivity.
  - intros EQ. rewrite EQ, E' in E. discriminate.
Qed.
Print Assumptions c75_rectangle.
