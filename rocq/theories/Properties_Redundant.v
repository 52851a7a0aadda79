(** Property C77: tags that set what is already in force. *)

From Coq Require Import String.
From Verif Require Import Base Str Multi Color Raster Font Graphic Config Sign Render
  Spec_Multi Spec_Color Spec_Sign Spec_Render Spec_Page Spec_Redundant
  Proofs_Str Proofs_Norm Proofs_Sign Proofs_Pages Proofs_Redundant Examples_Sign Properties_Render Properties_Layout.
Open Scope list_scope.

(** Adding tags that set the foreground colour, the page background, the font,
    the page justification, the character spacing or the page times that are
    already in force changes nothing: as long as the message has given only
    pages, the longer one has given the same pages, and what comes next is the
    same as well, be it a page, an error, a panic or the end. *)
Theorem c77_redundant : forall md d ms ms' vs ws, Meaning ms (map Ok vs) -> Meaning ms' (map Ok ws) -> Padded d [] vs ws ->
  Forall (Supports d) vs -> Forall (Supports d) ws -> forall ps,
  pages_take md d (List.length ps) (pages_new d ms) = Val (map Ok ps) ->
  pages_take md d (List.length ps) (pages_new d ms') = Val (map Ok ps)
  /\ pages_take md d (S (List.length ps)) (pages_new d ms) = pages_take md d (S (List.length ps)) (pages_new d ms').
Proof. intros md d ms ms' vs ws. exact (padded d md ms ms' vs ws). Qed.
Print Assumptions c77_redundant.

(** The settings stay in force on the next page. *)
Definition ex_plain : list Value :=
  [VText (lit "A"); VColorForeground (Some (Legacy 5)); VPageBackground (Some (Legacy 3)); VSpacingCharacter 2; VText (lit "AB"); VNewPage;
   VPageTime (Some 9) None; VText (lit "B")].
Definition ex_padded : list Value :=
  [VFont (Some (1, None)); VPageBackground None; VColorForeground None; VSpacingCharacterEnd; VText (lit "A"); VColorForeground (Some (Legacy 5));
   VPageBackground (Some (Legacy 3)); VSpacingCharacter 2; VJustificationPage (Some JpTop); VSpacingCharacter 2; VText (lit "AB"); VNewPage;
   VPageBackground (Some (Legacy 3)); VColorForeground (Some (Legacy 5)); VSpacingCharacter 2; VFont None; VPageTime (Some 9) None; VText (lit "B"); VPageTime (Some 9) None].
Definition ex_plain_ms : str := lit "A[cf5][pb3][sc2]AB[np][pt9]B".
Definition ex_padded_ms : str := lit "[fo1][pb][cf][/sc]A[cf5][pb3][sc2][jp2][sc2]AB[np][pb3][cf5][sc2][fo][pt9]B[pt9]".

Lemma lx_supports v : match v with VText _ | VColorForeground _ | VPageTime _ _ | VPageBackground _ | VFont _ | VJustificationPage _
  | VSpacingCharacter _ | VSpacingCharacterEnd | VNewPage => True | _ => False end -> Supports lx_d v.
Proof. intros H t Ht. inversion Ht; subst; try contradiction; vm_compute; reflexivity. Qed.

Example c77_example : Meaning ex_plain_ms (map Ok ex_plain) /\ Meaning ex_padded_ms (map Ok ex_padded) /\ Padded lx_d [] ex_plain ex_padded
  /\ Forall (Supports lx_d) ex_plain /\ Forall (Supports lx_d) ex_padded
  /\ shapes (pages_take Debug lx_d 9 (pages_new lx_d ex_plain_ms)) = Val [ShPage 20 12 30; ShPage 20 12 9].
Proof.
  split; [apply (values_meaning Debug); vm_compute; reflexivity|].
  split; [apply (values_meaning Debug); vm_compute; reflexivity|].
  split.
  { unfold ex_plain, ex_padded. 
    apply Pd_add; [apply Re_fo; vm_compute; reflexivity|].
    apply Pd_add; [exact (Re_pb lx_d [])|].
    apply Pd_add; [exact (Re_cf lx_d [])|].
    apply Pd_add; [apply Re_scend; reflexivity|].
    do 4 apply Pd_keep. cbn [app].
    apply Pd_add; [apply Re_jp; [discriminate|vm_compute; reflexivity]|].
    apply Pd_add; [apply Re_sc; reflexivity|].
    do 2 apply Pd_keep. cbn [app].
    apply Pd_add; [match goal with |- Redundant _ ?p _ => exact (Re_pb lx_d p) end|].
    apply Pd_add; [match goal with |- Redundant _ ?p _ => exact (Re_cf lx_d p) end|].
    apply Pd_add; [apply Re_sc; reflexivity|].
    apply Pd_add; [apply Re_fo; vm_compute; reflexivity|].
    do 2 apply Pd_keep. cbn [app].
    apply Pd_add; [apply Re_pt; vm_compute; reflexivity|]. apply Pd_nil. }
  split; [repeat (constructor; [apply lx_supports; exact I|]); constructor|].
  split; [repeat (constructor; [apply lx_supports; exact I|]); constructor|].
  vm_compute. reflexivity.
Qed.

(** Not so for line justification: behind a text on the same line, setting the
    line justification in force starts the line again, over the text. *)
Theorem c77_line : exists d ms ms' p q, 
  Meaning ms (map Ok [VText (lit "A"); VColorForeground None; VText (lit "B")])
  /\ Meaning ms' (map Ok [VText (lit "A"); VJustificationLine (Some (default_justification_line (d_multi_cfg d))); VColorForeground None; VText (lit "B")])
  /\ pages_take Debug d 9 (pages_new d ms) = Val [Ok p] /\ pages_take Debug d 9 (pages_new d ms') = Val [Ok q]
  /\ pg_raster p <> pg_raster q.
Proof.
  set (ms := lit "A[cf]B"). set (ms' := lit "A[jl2][cf]B").
  destruct (pixel_of_val (pages_take Debug lx_d 9 (pages_new lx_d ms)) 3 1 (0, 0, 0)) as (p & H & E); [vm_compute; reflexivity|].
  destruct (pixel_of_val (pages_take Debug lx_d 9 (pages_new lx_d ms')) 3 1 (255, 208, 0)) as (q & H' & E'); [vm_compute; reflexivity|].
  exists lx_d, ms, ms', p, q.
  splits; try exact H; try exact H'.
  - apply (values_meaning Debug). vm_compute. reflexivity.
  - apply (values_meaning Debug). vm_compute. reflexivity.
  - intros EQ. rewrite EQ, E' in E. discriminate E.
Qed.
Print Assumptions c77_line.
