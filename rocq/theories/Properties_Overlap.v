(** Property C78: colour rectangles and graphics apart from each other, and
    behind one another. *)

From Coq Require Import String Lia.
From Verif Require Import Base Str Multi Color Raster Font Graphic Config Sign Render
  Spec_Multi Spec_Color Spec_Sign Spec_Render Spec_Draw Spec_Page Spec_Overlap
  Proofs_Str Proofs_Norm Proofs_Sign Proofs_Pages Proofs_Overlap Examples_Sign Properties_Render Properties_Layout.
Open Scope list_scope.

(** When neighbouring pictures (colour rectangles and graphics) that have no pixel
    in common change places, and pictures that lie behind a later colour rectangle
    of the same section are left out, pages stay the same: as long as the first
    message gives only pages, the second gives pages with the same durations,
    sizes and pixels, and ends with it. *)
Theorem c78_redrawn : forall md d ms ms' vs ws n ps, Meaning ms (map Ok vs) -> Meaning ms' (map Ok ws) -> Redrawn d vs ws ->
  pages_take md d n (pages_new d ms) = Val (map Ok ps) ->
  exists qs, pages_take md d n (pages_new d ms') = Val (map Ok qs) /\ Forall2 SamePage ps qs.
Proof. exact redrawn. Qed.
Print Assumptions c78_redrawn.

(** A rectangle and a graphic beside each other change places; another graphic
    behind a rectangle is left out. *)
Definition ex_drawn : list Value :=
  [VText (lit "A"); VColorRectangle (mkRect 2 2 3 2) (Legacy 7); VGraphic 1 (Some (9, 7, None)); VGraphic 1 None; VColorForeground (Some (Legacy 4)); VColorRectangle (mkRect 1 1 0 4) (Legacy 5)].
Definition ex_redrawn : list Value :=
  [VText (lit "A"); VGraphic 1 (Some (9, 7, None)); VColorRectangle (mkRect 2 2 3 2) (Legacy 7); VColorForeground (Some (Legacy 4)); VColorRectangle (mkRect 1 1 0 4) (Legacy 5)].
Definition ex_drawn_ms : str := lit "A[cr2,2,3,2,7][g1,9,7][g1][cf4][cr1,1,0,4,5]".
Definition ex_redrawn_ms : str := lit "A[g1,9,7][cr2,2,3,2,7][cf4][cr1,1,0,4,5]".

Lemma lx_graphic g : FirstGraphic (d_graphics lx_d) 1 g -> g_width g = 3 /\ g_height g = 2.
Proof.
  intros H. apply FirstGraphic_lookup in H. assert (E : match graphic_lookup (d_graphics lx_d) 1 with Some k => g_width k = 3 /\ g_height k = 2 | None => False end) by (vm_compute; auto).
  rewrite H in E. exact E.
Qed.

Example c78_example : Meaning ex_drawn_ms (map Ok ex_drawn) /\ Meaning ex_redrawn_ms (map Ok ex_redrawn) /\ Redrawn lx_d ex_drawn ex_redrawn
  /\ shapes (pages_take Debug lx_d 9 (pages_new lx_d ex_drawn_ms)) = Val [ShPage 20 12 30].
Proof.
  split; [apply (values_meaning Debug); vm_compute; reflexivity|].
  split; [apply (values_meaning Debug); vm_compute; reflexivity|].
  split; [|vm_compute; reflexivity].
  unfold ex_drawn, ex_redrawn. apply Rd_keep. apply Rd_swap.
  - split; [exact I|]. split; [exact I|]. intros x y _ [H K]. inversion H as [? ? ? ? C|]; subst. inversion K as [|? ? ? ? ? F G]; subst.
    apply lx_graphic in F as [E1 E2]. cbn in G. rewrite E1, E2 in G. unfold Covers in C. cbn in C. lia.
  - apply (Rd_hide lx_d (VGraphic 1 None) [VColorForeground (Some (Legacy 4))] (VColorRectangle (mkRect 1 1 0 4) (Legacy 5)) [] []).
    + split; [exact I|]. split; [eauto|]. intros x y S H. inversion H as [|? ? ? ? ? F G]; subst. apply lx_graphic in F as [E1 E2]. cbn in G. rewrite E1, E2 in G.
      constructor. unfold Covers. cbn. destruct S as [S1 S2]. change (sign_width_pixels (d_vms_cfg lx_d)) with 20 in S1. lia.
    + cbn. intuition discriminate.
    + intros r. cbn. intuition discriminate.
    + constructor.
Qed.

(** Pictures with a pixel in common may not change places. *)
Theorem c78_over : exists d ms ms' r r' c c' p q,
  Meaning ms (map Ok [VColorRectangle r c; VColorRectangle r' c']) /\ Meaning ms' (map Ok [VColorRectangle r' c'; VColorRectangle r c])
  /\ pages_take Debug d 9 (pages_new d ms) = Val [Ok p] /\ pages_take Debug d 9 (pages_new d ms') = Val [Ok q]
  /\ pg_raster p <> pg_raster q.
Proof.
  set (ms := lit "[cr1,1,2,1,5][cr2,1,2,1,7]"). set (ms' := lit "[cr2,1,2,1,7][cr1,1,2,1,5]").
  destruct (pixel_of_val (pages_take Debug lx_d 9 (pages_new lx_d ms)) 1 0 (255, 255, 255)) as (p & H & E); [vm_compute; reflexivity|].
  destruct (pixel_of_val (pages_take Debug lx_d 9 (pages_new lx_d ms')) 1 0 (0, 0, 255)) as (q & H' & E'); [vm_compute; reflexivity|].
  exists lx_d, ms, ms', (mkRect 1 1 2 1), (mkRect 2 1 2 1), (Legacy 5), (Legacy 7), p, q.
  splits; try exact H; try exact H'.
  - apply (values_meaning Debug). vm_compute. reflexivity.
  - apply (values_meaning Debug). vm_compute. reflexivity.
  - intros EQ. rewrite EQ, E' in E. discriminate E.
Qed.
Print Assumptions c78_over.
