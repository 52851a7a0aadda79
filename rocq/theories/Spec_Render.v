(** What the renderer is expected to do, written from the documentation of
    src/dms/render.rs and NTCIP 1203: the sequence of pages, the tags a sign
    accepts, and text rectangles.  The data types are shared with the model. *)

From Coq Require Import String.
From Verif Require Import Base Str Multi Color Raster Font Graphic Config Sign Render Spec_Multi.

(** ** Running the page iterator *)

(** Iterator states that rendering [ms] goes through. *)
Inductive Reaches (md : mode) (d : Dms) (ms : str) : Pages -> Prop :=
| Rc_start : Reaches md d ms (pages_new d ms)
| Rc_step p r p' :
    Reaches md d ms p -> pages_next md d p = Val (Some r, p') -> Reaches md d ms p'.

(** The part of the message that an iterator state has not read. *)
Definition Unread (p : Pages) (s : str) : Prop :=
  exists a, ms_str (p_values p) = a ++ s /\ ms_off (p_values p) = len a.

(** The iterator yields exactly [l] and then ends. *)
Definition Yields (md : mode) (d : Dms) (ms : str) (l : list (result Page SyntaxError)) : Prop :=
  exists n, pages_take md d n (pages_new d ms) = Val l /\ (List.length l < n)%nat.

(** Size of the sign, and a raster of that size. *)
Definition SignSized (d : Dms) (r : Raster rgb) : Prop :=
  r_width r = sign_width_pixels (d_vms_cfg d) /\ r_height r = sign_height_pixels (d_vms_cfg d).

(** All pixels have one colour. *)
Definition Uniform {P} (r : Raster P) (c : P) : Prop :=
  forall x y, 0 <= x < r_width r -> 0 <= y < r_height r -> r_pixel r x y = c.

(** ** Pages of a message (C38) *)

Definition no_page_break (vs : list Value) : Prop := ~ In VNewPage vs.

(** The message cut at its [np] tags. *)
Inductive SplitPages : list Value -> list (list Value) -> Prop :=
| Sp_last pg : no_page_break pg -> SplitPages pg [pg]
| Sp_cons pg rest pgs : no_page_break pg -> SplitPages rest pgs ->
    SplitPages (pg ++ VNewPage :: rest) (pg :: pgs).

(** [vs] is the first page of a message with pieces [rs]. *)
Definition FirstPage (rs : list (result Value SyntaxError)) (vs : list Value) : Prop :=
  no_page_break vs /\ (rs = map Ok vs \/ exists t, rs = map Ok vs ++ Ok VNewPage :: t).

(** The page times in force at the end of [vs]: those of the last [pt] tag, an
    omitted one being the sign's default; the defaults without any [pt]. *)
Definition no_page_time (vs : list Value) : Prop := forall a b, ~ In (VPageTime a b) vs.
Definition or_default (o : option Z) (dflt : Z) : Z := match o with Some n => n | None => dflt end.
Inductive TimesInForce (on_d off_d : Z) (vs : list Value) : Z -> Z -> Prop :=
| Tf_default : no_page_time vs -> TimesInForce on_d off_d vs on_d off_d
| Tf_set a on off b : vs = a ++ VPageTime on off :: b -> no_page_time b ->
    TimesInForce on_d off_d vs (or_default on on_d) (or_default off off_d).

(** The pages shown for [pgs], when [before] are the values of earlier pages:
    one ON page each, followed by a blank OFF page exactly when the page off
    time is positive. *)
Inductive PageSequence (on_d off_d : Z) : list Value -> list (list Value) -> list Page -> Prop :=
| Ps_end before : PageSequence on_d off_d before [] []
| Ps_on before pg pgs on off P l :
    TimesInForce on_d off_d (before ++ pg) on off -> off <= 0 -> pg_duration P = on ->
    PageSequence on_d off_d (before ++ pg) pgs l ->
    PageSequence on_d off_d before (pg :: pgs) (P :: l)
| Ps_on_off before pg pgs on off P Q c l :
    TimesInForce on_d off_d (before ++ pg) on off -> 0 < off -> pg_duration P = on ->
    pg_duration Q = off -> Uniform (pg_raster Q) c ->
    PageSequence on_d off_d (before ++ pg) pgs l ->
    PageSequence on_d off_d before (pg :: pgs) (P :: Q :: l).

(** ** Supported tags (C40) *)

(** The tag a value is written with ([None] for plain text; [f0] is a tag of
    its own that no sign can list as supported). *)
Definition field_tags : list Tag :=
  [TF1; TF2; TF3; TF4; TF5; TF6; TF7; TF8; TF9; TF10; TF11; TF12; TF13].
Inductive WrittenWith : Value -> Tag -> Prop :=
| Ww_cb c : WrittenWith (VColorBackground c) TCb
| Ww_cf c : WrittenWith (VColorForeground c) TCf
| Ww_cr r c : WrittenWith (VColorRectangle r c) TCr
| Ww_f i w t : nth_error field_tags i = Some t -> WrittenWith (VField (Z.of_nat i + 1) w) t
| Ww_fl o a b : WrittenWith (VFlash o a b) TFl
| Ww_flend : WrittenWith VFlashEnd TFl
| Ww_fo f : WrittenWith (VFont f) TFo
| Ww_g n p : WrittenWith (VGraphic n p) TG
| Ww_hc c : WrittenWith (VHexadecimalCharacter c) THc
| Ww_jl j : WrittenWith (VJustificationLine j) TJl
| Ww_jp j : WrittenWith (VJustificationPage j) TJp
| Ww_ms i s : WrittenWith (VManufacturerSpecific i s) TMs
| Ww_msend i s : WrittenWith (VManufacturerSpecificEnd i s) TMs
| Ww_mv m d w s r t : WrittenWith (VMovingText m d w s r t) TMv
| Ww_nl x : WrittenWith (VNewLine x) TNl
| Ww_np : WrittenWith VNewPage TNp
| Ww_pb c : WrittenWith (VPageBackground c) TPb
| Ww_pt a b : WrittenWith (VPageTime a b) TPt
| Ww_sc s : WrittenWith (VSpacingCharacter s) TSc
| Ww_scend : WrittenWith VSpacingCharacterEnd TSc
| Ww_tr r : WrittenWith (VTextRectangle r) TTr.

(** The sign lists the tag as supported. *)
Definition Lists (d : Dms) (t : Tag) : Prop :=
  Z.testbit (supported_multi_tags (d_multi_cfg d)) (tag_bit t) = true.
Definition Supports (d : Dms) (v : Value) : Prop := forall t, WrittenWith v t -> Lists d t.

(** [Refused d r e]: the piece [r] of a message is refused with error [e]. *)
Inductive Refused (d : Dms) : result Value SyntaxError -> SyntaxError -> Prop :=
| Rf_malformed e : Refused d (Err e) e
| Rf_tag v t : WrittenWith v t -> ~ Lists d t -> Refused d (Ok v) (SUnsupportedTag (display v)).

(** ** Text rectangles (C43) *)

(** The rectangle a [tr] tag asks for: a zero width or height reaches to the
    edge of a sign of [w] by [h] pixels. *)
Definition rect_on (w h : Z) (r : Rectangle) : Rectangle :=
  mkRect (rx r) (ry r)
    (if rwidth r =? 0 then Z.max 0 (w - (rx r - 1)) else rwidth r)
    (if rheight r =? 0 then Z.max 0 (h - (ry r - 1)) else rheight r).

(** [n] is a multiple of the character size (any number on a full matrix). *)
Definition on_boundary (size n : Z) : Prop := size = 0 \/ exists k, n = k * size.

(** A text rectangle is accepted when it lies on the sign, holds at least one
    pixel, and starts and ends on character boundaries.  (On a sign of 0 by 0
    pixels, the rectangle of the whole sign is accepted, though it is empty.) *)
Definition GoodTextRect (d : Dms) (r : Rectangle) : Prop :=
  let w := sign_width_pixels (d_vms_cfg d) in
  let h := sign_height_pixels (d_vms_cfg d) in
  let q := rect_on w h r in
  (1 <= rwidth q /\ 1 <= rheight q \/ w = 0 /\ h = 0)
  /\ rx q - 1 + rwidth q <= w /\ ry q - 1 + rheight q <= h
  /\ on_boundary (char_width_pixels (d_vms_cfg d)) (rx q - 1)
  /\ on_boundary (char_width_pixels (d_vms_cfg d)) (rwidth q)
  /\ on_boundary (char_height_pixels (d_vms_cfg d)) (ry q - 1)
  /\ on_boundary (char_height_pixels (d_vms_cfg d)) (rheight q).

(** Number of [tr] tags. *)
Fixpoint text_rects (vs : list Value) : nat :=
  match vs with
  | [] => O
  | VTextRectangle _ :: r => S (text_rects r)
  | _ :: r => text_rects r
  end.
