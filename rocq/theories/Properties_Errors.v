(** C58: the messages of errors tell them apart. *)

From Coq Require Import String.
From Verif Require Import Base Str Multi Font Graphic Config Sign Errors Spec_Errors Proofs_Errors.
Open Scope list_scope.

Theorem c58_syntax : forall e e', syntax_ok e -> syntax_ok e' -> show_syntax e = show_syntax e' -> e = e'.
Proof. exact syntax_inj. Qed.
Print Assumptions c58_syntax.

Theorem c58_sign : forall e e', sign_error_ok e -> sign_error_ok e' -> show_sign_error e = show_sign_error e' -> e = e'.
Proof. exact sign_error_inj. Qed.
Print Assumptions c58_sign.

Theorem c58_parts :
  (forall e e', font_error_ok e -> font_error_ok e' -> show_font_error e = show_font_error e' -> e = e')
  /\ (forall e e', show_graphic_error e = show_graphic_error e' -> e = e')
  /\ (forall e e', show_cfg_error e = show_cfg_error e' -> e = e').
Proof. exact (conj font_error_inj (conj graphic_error_inj cfg_error_inj)). Qed.
Print Assumptions c58_parts.

Example c58_examples :
  show_syntax (SFontNotDefined 17) = lit "font not defined: 17"
  /\ show_syntax (SUnsupportedTagValue (lit "[tr0,0,1,1]")) = lit "unsupported tag value: [tr0,0,1,1]"
  /\ show_sign_error (EFont (FDuplicateChar 65)) = lit "Font error: Duplicate character: A".
Proof. vm_compute. auto. Qed.
