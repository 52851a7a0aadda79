(** Specification of message patterns (C33 to C36), written from the
    documentation of src/dms/pattern.rs, independently of the iterator in
    [Pattern]. *)

From Coq Require Import String.
From Verif Require Import Base Str Multi Color Font Config Sign
  Spec_Multi Spec_Color Spec_Sign Spec_Render Spec_Layout Spec_Page.
Open Scope list_scope.

(** ** Areas *)

(** Pages and text rectangles are areas that can be filled with lines.  An area
    has a rectangle, the font number in force where it starts, the values in it,
    and the [np] or [tr] tag after them ([None] at the end of the pattern). *)
Record Area := mkArea {
  ar_rect : Rectangle; ar_font : Z; ar_values : list Value; ar_end : option Value }.

Definition starts_area (v : Value) : Prop :=
  match v with VNewPage | VTextRectangle _ => True | _ => False end.
Definition within_area (vs : list Value) : Prop := forall v, In v vs -> ~ starts_area v.

(** Number of the font in force after the values [vs]. *)
Definition font_number (d : Dms) : Z -> list Value -> Z :=
  in_force (fun v => match v with
                     | VFont None => Some (default_font (d_multi_cfg d))
                     | VFont (Some (n, _)) => Some n
                     | _ => None
                     end).

Definition text_rect (d : Dms) (r : Rectangle) : Rectangle :=
  rect_on (sign_width_pixels (d_vms_cfg d)) (sign_height_pixels (d_vms_cfg d)) r.

(** [Areas d r n vs l]: in area [r] with font number [n], the values [vs] make up
    the areas [l]. *)
Inductive Areas (d : Dms) : Rectangle -> Z -> list Value -> list Area -> Prop :=
| Ar_last r n vs : within_area vs -> Areas d r n vs [mkArea r n vs None]
| Ar_page r n vs rest l : within_area vs ->
    Areas d (sign_rect d) (font_number d n vs) rest l ->
    Areas d r n (vs ++ VNewPage :: rest) (mkArea r n vs (Some VNewPage) :: l)
| Ar_rect r n vs q rest l : within_area vs ->
    Areas d (text_rect d q) (font_number d n vs) rest l ->
    Areas d r n (vs ++ VTextRectangle q :: rest) (mkArea r n vs (Some (VTextRectangle q)) :: l).

(** The areas of a pattern with values [vs]. *)
Definition PatternAreas (d : Dms) (vs : list Value) : list Area -> Prop :=
  Areas d (sign_rect d) (default_font (d_multi_cfg d)) vs.

(** Text and new lines take up an area; a whole page is not fillable when a text
    rectangle follows.  The end of the pattern counts as an [np] tag. *)
Definition takes_room (v : Value) : Prop :=
  match v with VText _ | VNewLine _ => True | _ => False end.
Definition Fillable (d : Dms) (a : Area) : Prop :=
  (forall v, In v (ar_values a) -> ~ takes_room v)
  /\ match ar_end a with
     | None => Lists d TNp
     | Some (VTextRectangle _) => ar_rect a <> sign_rect d
     | Some _ => True
     end.

(** Number of lines that can be filled into an area. *)
Definition Room (d : Dms) (a : Area) (n : Z) : Prop := RectLines d (ar_rect a) (ar_font a) n.

(** Counting lines of no height and no spacing does not end (C32); on a built
    sign this needs font number 0. *)
Definition Endless (d : Dms) (n : Z) : Prop :=
  exists f, FirstFont (d_fonts d) n f /\ char_height_pixels (d_vms_cfg d) = 0
    /\ f_height f = 0 /\ f_line_spacing f = 0.

(** ** Widths (C33) *)

(** The values of a pattern that the sign supports. *)
Inductive Kept (d : Dms) : list (result Value SyntaxError) -> list Value -> Prop :=
| Kp_nil : Kept d [] []
| Kp_ok v rs vs : Supports d v -> Kept d rs vs -> Kept d (Ok v :: rs) (v :: vs)
| Kp_refused v rs vs : ~ Supports d v -> Kept d rs vs -> Kept d (Ok v :: rs) vs
| Kp_malformed e rs vs : Kept d rs vs -> Kept d (Err e :: rs) vs.

(** One entry for each line of each fillable area; fillable areas are numbered
    from [i]. *)
Inductive Widths (d : Dms) : Z -> list Area -> list (Z * Z * Z) -> Prop :=
| Wd_nil i : Widths d i [] []
| Wd_other i a l ws : ~ Fillable d a -> Widths d i l ws -> Widths d i (a :: l) ws
| Wd_fill i a l n ws : Fillable d a -> Room d a n -> Widths d (i + 1) l ws ->
    Widths d i (a :: l) (repeat (rwidth (ar_rect a), ar_font a, i) (Z.to_nat n) ++ ws).

(** Number of fillable areas. *)
Inductive Fillables (d : Dms) : list Area -> Z -> Prop :=
| Fs_nil : Fillables d [] 0
| Fs_other a l n : ~ Fillable d a -> Fillables d l n -> Fillables d (a :: l) n
| Fs_fill a l n : Fillable d a -> Fillables d l n -> Fillables d (a :: l) (n + 1).

(** ** Filling (C35) *)

Definition is_font (v : Value) : bool := match v with VFont _ => true | _ => false end.
Definition without_fonts (vs : list Value) : list Value := filter (fun v => negb (is_font v)) vs.
Definition written (vs : list Value) : str := List.concat (map display vs).

(** The last font tag of [vs]. *)
Definition last_font : list Value -> list Value :=
  in_force (fun v => if is_font v then Some [v] else None) [].

Definition end_values (a : Area) : list Value := match ar_end a with Some v => [v] | None => [] end.

(** [Filled d since l lines s]: filling [lines] into the areas [l] gives [s].
    Lines are joined by [nl].  Font tags are left out, but for the last one since
    the previous fillable area (the values [since] and those of the area), which
    is written after the lines. *)
Inductive Filled (d : Dms) : list Value -> list Area -> list str -> str -> Prop :=
| Fd_nil since lines : Filled d since [] lines []
| Fd_other since a l lines s : ~ Fillable d a ->
    Filled d (since ++ ar_values a) l lines s ->
    Filled d since (a :: l) lines (written (without_fonts (ar_values a) ++ end_values a) ++ s)
| Fd_fill since a l n used rest t s : Fillable d a -> Room d a n ->
    Z.of_nat (List.length used) <= n -> (Z.of_nat (List.length used) = n \/ rest = []) ->
    Interspersed (lit "[nl]") used t ->
    Filled d [] l rest s ->
    Filled d since (a :: l) (used ++ rest)
      (written (without_fonts (ar_values a)) ++ t
       ++ written (last_font (since ++ ar_values a) ++ end_values a) ++ s).

(** Font tags come last in a fillable area. *)
Definition FontsLast (d : Dms) (l : list Area) : Prop :=
  forall a, In a l -> forall x f y, ar_values a = x ++ VFont f :: y -> y = [] /\ Fillable d a.

(** ** Finding lines (C34) *)

(** Text with the tags allowed in it. *)
Definition line_value (v : Value) : Prop :=
  match v with
  | VText _ | VColorForeground _ | VJustificationLine _ | VSpacingCharacter _ | VSpacingCharacterEnd => True
  | _ => False
  end.
Definition LineText (t : str) : Prop := exists us, Meaning t (map Ok us) /\ Forall line_value us.

(** Number of lines that can be filled into a pattern. *)
Inductive TotalRoom (d : Dms) : list Area -> Z -> Prop :=
| Tr_nil : TotalRoom d [] 0
| Tr_other a l n : ~ Fillable d a -> TotalRoom d l n -> TotalRoom d (a :: l) n
| Tr_fill a l k n : Fillable d a -> Room d a k -> TotalRoom d l n -> TotalRoom d (a :: l) (k + n).

(** No two texts of an area are separated by font tags only. *)
Definition TextsApart (l : list Area) : Prop :=
  forall a, In a l -> forall x t u y,
    without_fonts (ar_values a) = x ++ VText t :: VText u :: y -> ~ (plain t /\ plain u).
