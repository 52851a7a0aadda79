(** Proofs for C95: as many lines as widths. *)

From Coq Require Import String Lia.
From Verif Require Import Base Str Multi Color Raster Font Graphic Config Sign Pattern
  Spec_Multi Spec_Color Spec_Font Spec_Tfon Spec_Graphic Spec_Sign Spec_Render Spec_Layout Spec_Page Spec_Pattern Spec_Lines Spec_Reached
  Proofs_Str Proofs_Norm Proofs_Pages Proofs_Sign Proofs_Place Proofs_Pattern Proofs_Fill Proofs_Lines Proofs_Extract Proofs_Reached Proofs_Sheets
  Properties_Lines.
From Verif Require Spec_Fail Proofs_Fail.
Open Scope list_scope.

Lemma widths_room d l : forall i ws n, Widths d i l ws -> TotalRoom d l n -> Z.of_nat (List.length ws) = n.
Proof.
  induction l as [|a l IH]; intros i ws n H H'; inversion H; subst; inversion H'; subst; try contradiction; auto; eauto.
  assert (n0 = k) as -> by (eapply RectLines_fun; eauto). rewrite app_length, repeat_length.
  assert (0 <= k) by (eapply Room_nonneg; eauto). rewrite Nat2Z.inj_add, Z2Nat.id by auto. f_equal. eauto.
Qed.

Lemma lines_tally md md' d pattern ms rs ws ls : Built d -> Meaning pattern rs -> pat_widths md d pattern = Val ws ->
  pat_lines md' d pattern ms = Val ls -> ls = [] \/ List.length ls = List.length ws.
Proof.
  intros HB HM EW EL. destruct (val_widths _ _ _ _ _ HB HM EW) as (vs & l & us & K & P & W & ->).
  destruct (c62_lines md' d pattern ms HB) as (rs2 & cut & vs2 & l2 & k & ts & o & HR & HK & HP & HT & HTo & HE & EO).
  assert (HR2 : Spec_Fail.Reading pattern rs false) by now apply Proofs_Fail.meaning_reading.
  destruct (Proofs_Fail.reading_fun _ _ _ _ _ HR HR2) as [-> ->].
  assert (vs2 = vs) as -> by (eapply kept_fun; eauto). assert (l2 = l) as -> by (eapply Areas_fun; eauto).
  rewrite EO in EL. destruct o as [ls'| | |]; try discriminate EL; injection EL as <-; [right|now left].
  pose proof (c62_count _ _ _ _ _ HT HE) as HC. rewrite map_length. apply Nat2Z.inj. symmetry. eapply widths_room; eauto.
Qed.
