(** What the order of the values of a page matters for (C75). *)

From Verif Require Import Base Str Multi Color Raster.
Open Scope list_scope.

(** Values that set the background, and the times, of the whole page. *)
Definition for_background (v : Value) : bool :=
  match v with VColorBackground _ | VPageBackground _ => true | _ => false end.
Definition for_times (v : Value) : bool := match v with VPageTime _ _ => true | _ => false end.

(** Values that matter for colour rectangles and graphics. *)
Definition for_pictures (v : Value) : bool :=
  match v with VColorBackground _ | VColorForeground _ | VColorRectangle _ _ | VGraphic _ _ => true | _ => false end.

(** Values that matter for text. *)
Definition for_text (v : Value) : bool :=
  match v with
  | VColorForeground _ | VFont _ | VJustificationLine _ | VJustificationPage _ | VNewLine _
  | VSpacingCharacter _ | VSpacingCharacterEnd | VText _ | VHexadecimalCharacter _ => true
  | _ => false
  end.

(** The values of a section: what stands between text rectangles and page
    breaks, each for one of these purposes. *)
Definition in_section (v : Value) : bool := for_background v || for_times v || for_pictures v || for_text v.

(** The same pictures in the same order, and the same text in the same order. *)
Definition SameSection (a b : list Value) : Prop :=
  Forall (fun v => in_section v = true) a /\ Forall (fun v => in_section v = true) b
  /\ filter for_pictures a = filter for_pictures b /\ filter for_text a = filter for_text b.

Inductive SameSections : list Value -> list Value -> Prop :=
| Ss_last a b : SameSection a b -> SameSections a b
| Ss_rect a b r vs ws : SameSection a b -> SameSections vs ws ->
    SameSections (a ++ VTextRectangle r :: vs) (b ++ VTextRectangle r :: ws).

(** Moreover the same backgrounds in the same order, and the same times in the same order. *)
Definition SamePage (a b : list Value) : Prop :=
  SameSections a b /\ filter for_background a = filter for_background b /\ filter for_times a = filter for_times b.

Inductive SamePages : list Value -> list Value -> Prop :=
| Sp_last a b : SamePage a b -> SamePages a b
| Sp_break a b vs ws : SamePage a b -> SamePages vs ws -> SamePages (a ++ VNewPage :: vs) (b ++ VNewPage :: ws).
