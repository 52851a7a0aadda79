(** Messages of errors. *)

From Coq Require Import String ZifyBool ZifyNat.
From Verif Require Import Base Str Multi Font Graphic Config Sign Errors Spec_Errors.
Open Scope list_scope.

Lemma show_back n : u8 n -> parse_u8 (show n) = Some n.
Proof.
  intros H. assert (A : forallb (fun n => match parse_u8 (show n) with Some m => m =? n | None => false end)
    (map Z.of_nat (seq 0 256)) = true) by (vm_compute; reflexivity).
  rewrite forallb_forall in A. specialize (A n). unfold u8 in H.
  assert (I : In n (map Z.of_nat (seq 0 256))) by (apply in_map_iff; exists (Z.to_nat n); split; [lia|apply in_seq; lia]).
  apply A in I. destruct (parse_u8 (show n)); [f_equal; lia|discriminate].
Qed.

Lemma show_inj n m : u8 n -> u8 m -> show n = show m -> n = m.
Proof. intros H H' E. apply show_back in H, H'. rewrite E in H. congruence. Qed.

Lemma syntax_inj e e' : syntax_ok e -> syntax_ok e' -> show_syntax e = show_syntax e' -> e = e'.
Proof.
  destruct e, e'; intros H H' E; cbn [syntax_ok] in H, H'; cbn [show_syntax] in E; try reflexivity;
    try (cbn in E; discriminate E);
    try (apply app_inv_head in E; first [now rewrite E|now injection E as ->|f_equal; now apply show_inj]).
Qed.

Lemma font_error_inj e e' : font_error_ok e -> font_error_ok e' -> show_font_error e = show_font_error e' -> e = e'.
Proof.
  destruct e, e'; intros H H' E; cbn [font_error_ok] in H, H'; cbn [show_font_error] in E; try reflexivity;
    try (cbn in E; discriminate E);
    try (apply app_inv_head in E; first [now injection E as ->|f_equal; now apply show_inj]).
Qed.

Lemma graphic_error_inj e e' : show_graphic_error e = show_graphic_error e' -> e = e'.
Proof. destruct e, e'; intros E; try reflexivity; discriminate E. Qed.

Lemma cfg_error_inj e e' : show_cfg_error e = show_cfg_error e' -> e = e'.
Proof. destruct e, e'; intros E; try reflexivity; discriminate E. Qed.

Lemma sign_error_inj e e' : sign_error_ok e -> sign_error_ok e' -> show_sign_error e = show_sign_error e' -> e = e'.
Proof.
  destruct e, e'; intros H H' E; cbn [show_sign_error] in E; try (cbn in E; discriminate E); apply app_inv_head in E; f_equal.
  - now apply cfg_error_inj.
  - now apply font_error_inj.
  - now apply graphic_error_inj.
Qed.
