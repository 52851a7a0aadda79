(** Errors that the code can hold: numbers in them are of type [u8]. *)

From Verif Require Import Base Str Multi Font Graphic Config Sign.

Definition syntax_ok (e : SyntaxError) : Prop :=
  match e with SFontNotDefined n | SGraphicNotDefined n => u8 n | _ => True end.

Definition font_error_ok (e : FontError) : Prop :=
  match e with FDuplicateNumber n => u8 n | _ => True end.

Definition sign_error_ok (e : SignError) : Prop :=
  match e with EFont e => font_error_ok e | _ => True end.
