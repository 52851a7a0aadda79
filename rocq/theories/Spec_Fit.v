(** Lines that fit the widths of a pattern (C64). *)

From Verif Require Import Base Str Multi Color Font Config Sign
  Spec_Multi Spec_Color Spec_Font Spec_Sign Spec_Render Spec_Layout Spec_Page Spec_Pattern.
Open Scope list_scope.

(** The text [t] fits the entry [(w, n, i)] of the widths of a pattern: it has no
    tags, and in the first font with number [n] it is no wider than [w]. *)
Definition LineFits (d : Dms) (e : Z * Z * Z) (t : str) : Prop :=
  let '(w, n, _) := e in
  plain t /\ Forall text_char t
  /\ exists f cs, FirstFont (d_fonts d) n f /\ Spells f t cs
       /\ line_width (f_char_spacing f) (map c_width cs) <= w.

(** Each line fits the entry at its place; lines past the entries are not used. *)
Definition AllFit (d : Dms) (ws : list (Z * Z * Z)) (lines : list str) : Prop :=
  forall i e t, nth_error ws i = Some e -> nth_error lines i = Some t -> LineFits d e t.

(** The tags of a pattern do not change the spacing, and versions of fonts are
    those of the sign. *)
Definition fit_value (d : Dms) (v : Value) : Prop :=
  match v with
  | VSpacingCharacter _ | VNewLine (Some _) => False
  | VFont (Some (n, Some k)) => forall f, FirstFont (d_fonts d) n f -> k = font_version_id f
  | _ => True
  end.

(** Font tags are in fillable areas, where [fill] leaves them in force for the next
    area; and there are no other characters in those. *)
Definition fit_area (d : Dms) (a : Area) : Prop :=
  (forall f, In (VFont f) (ar_values a) -> Fillable d a)
  /\ (Fillable d a -> forall c, ~ In (VHexadecimalCharacter c) (ar_values a)).
