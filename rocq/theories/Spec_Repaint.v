(** Pages of messages that differ in colours and page times (C72). *)

From Verif Require Import Base Str Multi Color Raster Font Graphic Config Sign Render
  Spec_Multi Spec_Color Spec_Graphic Spec_Sign Spec_Render Spec_Page Spec_Gamut.
Open Scope list_scope.

(** Signs alike in everything that places text and graphics.  (Not compared: colours,
    page times, and all that [Spec_Alike.SameSign] leaves out.) *)
Definition SameFace (d d' : Dms) : Prop :=
  let v := d_vms_cfg d in let v' := d_vms_cfg d' in
  let c := d_multi_cfg d in let c' := d_multi_cfg d' in
  (char_height_pixels v = char_height_pixels v' /\ char_width_pixels v = char_width_pixels v'
   /\ sign_height_pixels v = sign_height_pixels v' /\ sign_width_pixels v = sign_width_pixels v')
  /\ default_font c = default_font c' /\ default_justification_line c = default_justification_line c'
  /\ default_justification_page c = default_justification_page c'
  /\ cfg_color_scheme c = cfg_color_scheme c' /\ supported_multi_tags c = supported_multi_tags c'
  /\ d_fonts d = d_fonts d' /\ d_graphics d = d_graphics d'.

Section Repaint.

(** [R] relates a colour on the pages of one message to the colour in its place on
    the pages of the other; [T] relates times. *)
Variable R : rgb -> rgb -> Prop.
Variable T : Z -> Z -> Prop.
Variables d d' : Dms.

(** Off times of pages: both messages have an off page, or neither. *)
Definition OffTimes (a b : Z) : Prop := T a b /\ (0 < a <-> 0 < b).

Inductive Recolored : option Color -> option Color -> Prop :=
| Rc_default : Recolored None None
| Rc_shown c c' x x' : Shows (sign_colors d) c x -> Shows (sign_colors d') c' x' -> R x x' ->
    Recolored (Some c) (Some c')
| Rc_refused c c' : (forall x, ~ Shows (sign_colors d) c x) -> (forall x, ~ Shows (sign_colors d') c' x) ->
    Recolored (Some c) (Some c').

Inductive Retimed (Q : Z -> Z -> Prop) : option Z -> option Z -> Prop :=
| Rt_default : Retimed Q None None
| Rt_times a b : Q a b -> Retimed Q (Some a) (Some b).

(** Values that carry colours or page times. *)
Definition paints (v : Value) : Prop :=
  match v with
  | VColorForeground _ | VColorBackground _ | VPageBackground _ | VColorRectangle _ _ | VPageTime _ _ => True
  | _ => False
  end.

Inductive Repainted : Value -> Value -> Prop :=
| Rp_same v : ~ paints v -> Repainted v v
| Rp_cf c c' : Recolored c c' -> Repainted (VColorForeground c) (VColorForeground c')
| Rp_cb c c' : Recolored c c' -> Repainted (VColorBackground c) (VColorBackground c')
| Rp_pb c c' : Recolored c c' -> Repainted (VPageBackground c) (VPageBackground c')
| Rp_cr r c c' : Recolored (Some c) (Some c') -> Repainted (VColorRectangle r c) (VColorRectangle r c')
| Rp_pt a b a' b' : Retimed T a a' -> Retimed OffTimes b b' -> Repainted (VPageTime a b) (VPageTime a' b').

(** The same piece of a message, without a value, or values that differ so. *)
Inductive RepaintedToken : str -> str -> Prop :=
| Tp_value t t' v v' : TokenDenotes t (Ok v) -> TokenDenotes t' (Ok v') -> Repainted v v' -> RepaintedToken t t'
| Tp_none t : (forall v, ~ TokenDenotes t (Ok v)) -> RepaintedToken t t.

Definition RepaintedMessage (ms ms' : str) : Prop :=
  exists ts ts', Tokens ms ts /\ Tokens ms' ts' /\ Forall2 RepaintedToken ts ts'.

(** The defaults of the signs differ so. *)
Definition RepaintedSign : Prop :=
  R (foreground_default_rgb d) (foreground_default_rgb d') /\ R (background_default_rgb d) (background_default_rgb d')
  /\ T (default_page_on_time (d_multi_cfg d)) (default_page_on_time (d_multi_cfg d'))
  /\ OffTimes (default_page_off_time (d_multi_cfg d)) (default_page_off_time (d_multi_cfg d')).

(** So do the colours of graphics that carry their own (1-bit graphics use those of
    tags and defaults). *)
Definition RepaintedGraphics (ms : str) : Prop :=
  forall n pos g px py x x', Says ms (VGraphic n pos) -> FirstGraphic (d_graphics d) n g -> g_type g <> Monochrome1Bit ->
    Inks g (sign_colors d) px py x -> Inks g (sign_colors d') px py x' -> R x x'.

(** Pages of the same size with times and pixels that differ so. *)
Definition RepaintedPage (p q : Page) : Prop :=
  T (pg_duration p) (pg_duration q)
  /\ r_width (pg_raster p) = r_width (pg_raster q) /\ r_height (pg_raster p) = r_height (pg_raster q)
  /\ forall x y, R (r_pixel (pg_raster p) x y) (r_pixel (pg_raster q) x y).

(** The same error, or one that quotes another colour or time. *)
Inductive RepaintedError : SyntaxError -> SyntaxError -> Prop :=
| Re_same e : RepaintedError e e
| Re_tag s t : RepaintedError (SUnsupportedTag s) (SUnsupportedTag t)
| Re_value s t : RepaintedError (SUnsupportedTagValue s) (SUnsupportedTagValue t).

Definition RepaintedItem (a b : result Page SyntaxError) : Prop :=
  match a, b with
  | Ok p, Ok q => RepaintedPage p q
  | Err e, Err e' => RepaintedError e e'
  | _, _ => False
  end.

(** Both results are lists of such items, or both panic. *)
Definition RepaintedItems (a b : M (list (result Page SyntaxError))) : Prop :=
  match a, b with
  | Val l, Val l' => Forall2 RepaintedItem l l'
  | Panic, Panic | Hang, Hang => True
  | _, _ => False
  end.

End Repaint.

(** ** Special cases *)

(** Any two times, and any two colours. *)
Definition AnyTime (_ _ : Z) : Prop := True.
Definition AnyColor (_ _ : rgb) : Prop := True.

(** The default foreground for the default background, and the other way round. *)
Definition Swapped (d : Dms) (x x' : rgb) : Prop :=
  (x = foreground_default_rgb d /\ x' = background_default_rgb d)
  \/ (x = background_default_rgb d /\ x' = foreground_default_rgb d).

(** The message uses no colours but the defaults. *)
Definition Uncolored (d : Dms) (ms : str) : Prop :=
  forall v, Says ms v -> (forall c, ~ ColorIn v c)
    /\ forall k pos g, v = VGraphic k pos -> FirstGraphic (d_graphics d) k g -> g_type g = Monochrome1Bit.
