(** Property C69: what a page break leaves behind. *)

From Coq Require Import String.
From Verif Require Import Base Str Multi Color Raster Font Graphic Config Sign Render
  Spec_Multi Spec_Color Spec_Sign Spec_Render Spec_Page Spec_Follow
  Proofs_Str Proofs_Split Proofs_Norm Proofs_Sign Proofs_Page Proofs_Follow Examples_Sign Properties_Render Properties_Layout Properties_Page.
Open Scope list_scope.

(** What follows a page break depends on the message before it only through the
    settings still in force: behind two messages that leave the same colours,
    font, justifications, page times and character spacing, any text gives the
    same pages, errors and panics. *)
Theorem c69_settings : forall md d ms1 vs ps ms1' vs' ps' ms2, Lists d TNp ->
  Meaning ms1 (map Ok vs) -> Yields md d ms1 (map Ok ps) -> Meaning ms1' (map Ok vs') -> Yields md d ms1' (map Ok ps') ->
  SameSettings d vs vs' -> forall n, exists r,
    pages_take md d (List.length ps + n) (pages_new d (ms1 ++ lit "[np]" ++ ms2)) = after_pages ps r
    /\ pages_take md d (List.length ps' + n) (pages_new d (ms1' ++ lit "[np]" ++ ms2)) = after_pages ps' r.
Proof. exact message_settings. Qed.
Print Assumptions c69_settings.

(** Behind a message that leaves the sign's own settings, a message renders as it
    does alone. *)
Theorem c69_joined : forall md d ms1 vs ps ms2, Lists d TNp -> Meaning ms1 (map Ok vs) -> Yields md d ms1 (map Ok ps) ->
  SameSettings d vs [] -> forall n,
    pages_take md d (List.length ps + n) (pages_new d (ms1 ++ lit "[np]" ++ ms2))
    = after_pages ps (pages_take md d n (pages_new d ms2)).
Proof. exact message_joined. Qed.
Print Assumptions c69_joined.

(** Two pages, with settings changed and restored, in front of other pages; and
    two messages of different pages that leave the same colour and justification. *)
Definition wx_ms : str := lit "[cf2][jl3]A[nl]B[pt9][np][tr1,5,10,8][sc2]AB[/sc][jl][cf][pt]".
Definition wx_values : list Value :=
  [VColorForeground (Some (Legacy 2)); VJustificationLine (Some JlCenter); VText (lit "A"); VNewLine None; VText (lit "B");
   VPageTime (Some 9) None; VNewPage; VTextRectangle (mkRect 1 5 10 8); VSpacingCharacter 2; VText (lit "AB");
   VSpacingCharacterEnd; VJustificationLine None; VColorForeground None; VPageTime None None].
Definition wx_left : str := lit "[cf2][jl3]A[nl]B".
Definition wx_right : str := lit "[jl3]B[cf1]A[cf2]".
Definition wx_left_values : list Value :=
  [VColorForeground (Some (Legacy 2)); VJustificationLine (Some JlCenter); VText (lit "A"); VNewLine None; VText (lit "B")].
Definition wx_right_values : list Value :=
  [VJustificationLine (Some JlCenter); VText (lit "B"); VColorForeground (Some (Legacy 1)); VText (lit "A");
   VColorForeground (Some (Legacy 2))].

Example c69_example : Lists lx_d TNp
  /\ Meaning wx_ms (map Ok wx_values) /\ (exists ps, Yields Debug lx_d wx_ms (map Ok ps) /\ List.length ps = 2%nat)
  /\ SameSettings lx_d wx_values []
  /\ Meaning wx_left (map Ok wx_left_values) /\ (exists ps, Yields Debug lx_d wx_left (map Ok ps) /\ List.length ps = 1%nat)
  /\ Meaning wx_right (map Ok wx_right_values) /\ (exists ps, Yields Debug lx_d wx_right (map Ok ps) /\ List.length ps = 1%nat)
  /\ SameSettings lx_d wx_left_values wx_right_values /\ ~ SameSettings lx_d wx_left_values [].
Proof.
  splits.
  - reflexivity.
  - apply (values_meaning Debug). vm_compute. reflexivity.
  - eapply (yields_of Debug lx_d wx_ms 9 2); [vm_compute; reflexivity|cbn; lia|repeat constructor|reflexivity].
  - unfold SameSettings. splits; vm_compute; reflexivity.
  - apply (values_meaning Debug). vm_compute. reflexivity.
  - eapply (yields_of Debug lx_d wx_left 9 1); [vm_compute; reflexivity|cbn; lia|repeat constructor|reflexivity].
  - apply (values_meaning Debug). vm_compute. reflexivity.
  - eapply (yields_of Debug lx_d wx_right 9 1); [vm_compute; reflexivity|cbn; lia|repeat constructor|reflexivity].
  - unfold SameSettings. splits; vm_compute; reflexivity.
  - intros (H & _). vm_compute in H. discriminate H.
Qed.
