(** Property C76: hexadecimal characters are the characters they name. *)

From Coq Require Import String.
From Verif Require Import Base Str Multi Color Raster Font Graphic Config Sign Render
  Spec_Multi Spec_Color Spec_Sign Spec_Render Spec_Spell
  Proofs_Str Proofs_Norm Proofs_Sign Proofs_Spell Examples_Sign Properties_Render Properties_Layout.
Open Scope list_scope.

(** On a sign that supports the tag, a message in which hexadecimal character tags
    are replaced by the characters they name gives the same pages, errors and panics. *)
Theorem c76_spelled : forall md d n ms ms' xs ys, Lists d THc -> Meaning ms xs -> Meaning ms' ys -> Forall2 SpelledOut xs ys ->
  pages_take md d n (pages_new d ms) = pages_take md d n (pages_new d ms').
Proof. exact spelled. Qed.
Print Assumptions c76_spelled.

Definition ex_hex : str := lit "[jl3][hc41][nl][hc42][np][hc5b][x]".
Definition ex_spelled : str := lit "[jl3]A[nl]B[np][[[x]".
Definition ex_pieces (a b c : Value) : list (result Value SyntaxError) :=
  [Ok (VJustificationLine (Some JlCenter)); Ok a; Ok (VNewLine None); Ok b; Ok VNewPage; Ok c;
   Err (SUnsupportedTag (lit "x"))].

Example c76_example : Lists lx_d THc
  /\ Meaning ex_hex (ex_pieces (VHexadecimalCharacter 65) (VHexadecimalCharacter 66) (VHexadecimalCharacter 91))
  /\ Meaning ex_spelled (ex_pieces (VText (lit "A")) (VText (lit "B")) (VText (lit "[")))
  /\ Forall2 SpelledOut (ex_pieces (VHexadecimalCharacter 65) (VHexadecimalCharacter 66) (VHexadecimalCharacter 91))
       (ex_pieces (VText (lit "A")) (VText (lit "B")) (VText (lit "[")))
  /\ shapes (pages_take Debug lx_d 2 (pages_new lx_d ex_spelled)) = Val [ShPage 20 12 30; ShErr (SUnsupportedTag (lit "x"))].
Proof.
  split; [vm_compute; reflexivity|].
  split; [apply (values_meaning Debug); vm_compute; reflexivity|].
  split; [apply (values_meaning Debug); vm_compute; reflexivity|].
  split; [|vm_compute; reflexivity].
  assert (H : forall c, 0 < c < 128 -> SpelledOut (Ok (VHexadecimalCharacter c)) (Ok (VText [c]))).
  { intros c Hc. apply So_hex; [unfold is_char|]; lia. }
  unfold ex_pieces. repeat (constructor; [first [apply So_same|apply H; lia]|]). constructor.
Qed.
