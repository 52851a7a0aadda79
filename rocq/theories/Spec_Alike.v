(** Messages and signs that render alike (C67, C68). *)

From Verif Require Import Base Str Multi Color Raster Font Graphic Config Sign Render
  Spec_Multi Spec_Font Spec_Sign Spec_Render Spec_Gamut.
Open Scope list_scope.

(** ** Letter case (C67) *)

(** The same piece of a message, or tags that differ only in the case of letters. *)
Inductive CaseToken : str -> str -> Prop :=
| Ct_same t : CaseToken t t
| Ct_tag b b' : plain b -> plain b' -> CaseEq b b' -> CaseToken (91 :: b ++ [93]) (91 :: b' ++ [93]).

(** Messages that differ only in the case of letters in tags. *)
Definition Recased (ms ms' : str) : Prop :=
  exists ts ts', Tokens ms ts /\ Tokens ms' ts' /\ Forall2 CaseToken ts ts'.

(** The same error; the tag it names may be spelled in the other case. *)
Inductive CaseError : SyntaxError -> SyntaxError -> Prop :=
| Ce_same e : CaseError e e
| Ce_tag s t : CaseEq s t -> CaseError (SUnsupportedTag s) (SUnsupportedTag t)
| Ce_value s t : CaseEq s t -> CaseError (SUnsupportedTagValue s) (SUnsupportedTagValue t).

Definition CaseItem (a b : result Page SyntaxError) : Prop :=
  match a, b with
  | Ok p, Ok q => p = q
  | Err e, Err e' => CaseError e e'
  | _, _ => False
  end.

(** Both results are lists of such items, or both panic. *)
Definition CaseItems (a b : M (list (result Page SyntaxError))) : Prop :=
  match a, b with
  | Val l, Val l' => Forall2 CaseItem l l'
  | Panic, Panic | Hang, Hang => True
  | _, _ => False
  end.

(** Two results related by [R], or two panics (or endless loops). *)
Definition BothGive {A B} (R : A -> B -> Prop) (a : M A) (b : M B) : Prop :=
  match a, b with
  | Val x, Val y => R x y
  | Panic, Panic | Hang, Hang => True
  | _, _ => False
  end.

(** Values that carry a text of their own. *)
Definition carries_text (v : Value) : Prop :=
  match v with
  | VManufacturerSpecific _ _ | VManufacturerSpecificEnd _ _ | VMovingText _ _ _ _ _ _ => True
  | _ => False
  end.

(** ** What pages depend on (C68) *)

(** Signs with the same sizes in pixels, colours and defaults.  (Not compared: the
    sizes in millimetres, the access, type and technology of the sign, pitches, flash
    times, character set, tags, and limits of messages.) *)
Definition SameLook (d d' : Dms) : Prop :=
  let v := d_vms_cfg d in let v' := d_vms_cfg d' in
  let c := d_multi_cfg d in let c' := d_multi_cfg d' in
  (char_height_pixels v = char_height_pixels v' /\ char_width_pixels v = char_width_pixels v'
   /\ sign_height_pixels v = sign_height_pixels v' /\ sign_width_pixels v = sign_width_pixels v'
   /\ mono_fg v = mono_fg v' /\ mono_bg v = mono_bg v')
  /\ default_background_rgb c = default_background_rgb c' /\ default_foreground_rgb c = default_foreground_rgb c'
  /\ default_font c = default_font c' /\ default_justification_line c = default_justification_line c'
  /\ default_justification_page c = default_justification_page c'
  /\ default_page_on_time c = default_page_on_time c' /\ default_page_off_time c = default_page_off_time c'
  /\ cfg_color_scheme c = cfg_color_scheme c'.

(** ... and the same tags. *)
Definition SameSign (d d' : Dms) : Prop :=
  SameLook d d' /\ supported_multi_tags (d_multi_cfg d) = supported_multi_tags (d_multi_cfg d').

(** The same font, or graphic, of number [n], or none. *)
Definition SameFont (d d' : Dms) (n : Z) : Prop :=
  forall f, FirstFont (d_fonts d) n f <-> FirstFont (d_fonts d') n f.
Definition SameGraphic (d d' : Dms) (n : Z) : Prop :=
  forall g, FirstGraphic (d_graphics d) n g <-> FirstGraphic (d_graphics d') n g.

(** The fonts and graphics a message names; it starts in the sign's default font. *)
Inductive UsesFont (d : Dms) (ms : str) : Z -> Prop :=
| Uf_default : UsesFont d ms (default_font (d_multi_cfg d))
| Uf_tag n v : Says ms (VFont (Some (n, v))) -> UsesFont d ms n.
Inductive UsesGraphic (ms : str) : Z -> Prop :=
| Ug_tag n pos : Says ms (VGraphic n pos) -> UsesGraphic ms n.

(** ** What patterns depend on (C71) *)

(** Signs with the same sizes in pixels, supported tags and number of the default
    font. *)
Definition SameCells (d d' : Dms) : Prop :=
  let v := d_vms_cfg d in let v' := d_vms_cfg d' in
  let c := d_multi_cfg d in let c' := d_multi_cfg d' in
  char_height_pixels v = char_height_pixels v'
  /\ sign_height_pixels v = sign_height_pixels v' /\ sign_width_pixels v = sign_width_pixels v'
  /\ default_font c = default_font c' /\ supported_multi_tags c = supported_multi_tags c'.

(** Fonts of number [n] with the same height and line spacing, or no such fonts. *)
Definition SameLines (d d' : Dms) (n : Z) : Prop :=
  (exists f f', FirstFont (d_fonts d) n f /\ FirstFont (d_fonts d') n f'
     /\ f_height f = f_height f' /\ f_line_spacing f = f_line_spacing f')
  \/ (forall f, ~ FirstFont (d_fonts d) n f) /\ (forall f, ~ FirstFont (d_fonts d') n f).
