(** Proofs for C94: patterns with the same layout. *)

From Coq Require Import String Lia.
From Verif Require Import Base Str Multi Color Raster Font Graphic Config Sign Pattern
  Spec_Multi Spec_Color Spec_Font Spec_Graphic Spec_Sign Spec_Render Spec_Layout Spec_Page Spec_Pattern Spec_Bones
  Proofs_Str Proofs_Norm Proofs_Pages Proofs_Sign Proofs_Place Proofs_Pattern Proofs_Fill.
Open Scope list_scope.

Lemma idle_fills d x n rf rs : idle d x -> fills (plist d n rf (x :: rs)) = fills (plist d n rf rs).
Proof.
  destruct x as [v|e]; cbn [plist fills]; auto. intros H. destruct (supp d v) eqn:E; [|reflexivity].
  apply supp_iff in E. destruct H as [H|H]; [contradiction|]. rewrite fills_app. destruct v; try contradiction; reflexivity.
Qed.

Lemma room_fills d v n rf rs : takes_room v -> Supports d v -> fills (plist d n rf (Ok v :: rs)) = fills (plist d n None rs).
Proof.
  intros T S. apply supp_iff in S. cbn [plist]. rewrite S, fills_app. destruct v; try contradiction; reflexivity.
Qed.

Lemma layout_fills d rs rs' : SameLayout d rs rs' -> forall n rf, fills (plist d n rf rs) = fills (plist d n rf rs').
Proof.
  induction 1 as [|x rs rs' I _ IH|x rs rs' I _ IH|x rs rs' _ IH|v w rs rs' Tv Tw Sv Sw _ IH|v w rs rs' Tv Tw Sv Sw _ IH]; intros n rf; auto.
  - rewrite idle_fills; auto.
  - rewrite idle_fills; auto.
  - destruct x as [v|e]; cbn [plist fills]; auto. destruct (supp d v); cbn [fills]; auto. rewrite !fills_app. cbn [fills]. now rewrite IH.
  - rewrite !room_fills; auto.
  - rewrite room_fills, room_fills by auto. rewrite <- IH, room_fills; auto.
Qed.

Lemma layout_widths md d a b rs rs' : Meaning a rs -> Meaning b rs' -> SameLayout d rs rs' -> pat_widths md d a = pat_widths md d b.
Proof.
  intros HA HB H. unfold pat_widths. rewrite (pat_items_val md d a rs HA), (pat_items_val md d b rs' HB), !widths_fills.
  f_equal. now apply layout_fills.
Qed.
