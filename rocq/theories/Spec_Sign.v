(** Specification of sign building, line counts and the tags that draw. *)

From Coq Require Import String.
From Verif Require Import Base Str Multi Color Raster Font Graphic Config Sign
  Spec_Color Spec_Font Spec_Tfon Spec_Graphic.
Open Scope list_scope.

(** ** Building a sign (C29, C30) *)

Definition face_width (s : SignCfg) (v : VmsCfg) : Z :=
  horizontal_border s + sign_width_pixels v * horizontal_pitch v.
Definition face_height (s : SignCfg) (v : VmsCfg) : Z :=
  vertical_border s + sign_height_pixels v * vertical_pitch v.

Definition fits_face (s : SignCfg) (v : VmsCfg) : Prop :=
  face_width s v <= sign_width s /\ face_height s v <= sign_height s.

(** At least one page; more only if the sign supports the new-page tag (bit 11
    of dmsSupportedMultiTags). *)
Definition pages_ok (c : MultiCfg) : Prop :=
  max_number_pages c = 1
  \/ 1 < max_number_pages c /\ Z.testbit (supported_multi_tags c) 11 = true.

(** Fields hold values of their Rust types. *)
Definition vms_fields (v : VmsCfg) : Prop :=
  u8 (char_height_pixels v) /\ u8 (char_width_pixels v)
  /\ u16 (sign_height_pixels v) /\ u16 (sign_width_pixels v)
  /\ u8 (horizontal_pitch v) /\ u8 (vertical_pitch v)
  /\ rgb_ok (mono_fg v) /\ rgb_ok (mono_bg v).
Definition sign_fields (s : SignCfg) : Prop :=
  u16 (sign_height s) /\ u16 (sign_width s) /\ u16 (horizontal_border s) /\ u16 (vertical_border s).
Definition multi_fields (c : MultiCfg) : Prop :=
  color_bytes (default_background_rgb c) /\ color_bytes (default_foreground_rgb c)
  /\ u8 (default_font c) /\ u8 (default_page_on_time c) /\ u8 (default_page_off_time c)
  /\ u8 (max_number_pages c).
Definition builder_fields (b : DmsBuilder) : Prop :=
  sign_fields (b_sign_cfg b) /\ vms_fields (b_vms_cfg b) /\ multi_fields (b_multi_cfg b)
  /\ table_fields (b_fonts b) /\ Forall graphic_fields (b_graphics b).

(** A slot after building: oversize graphics are cleared, others kept. *)
Definition SlotAfter (w h : Z) (g g' : Graphic) : Prop :=
  (g_width g <= w /\ g_height g <= h /\ g' = g)
  \/ ((w < g_width g \/ h < g_height g) /\ g_number g' = 0 /\ g_bitmap g' = []).

Definition bw (b : DmsBuilder) : Z := sign_width_pixels (b_vms_cfg b).
Definition bh (b : DmsBuilder) : Z := sign_height_pixels (b_vms_cfg b).

(** The built sign: the same configuration and fonts. *)
Definition BuiltFrom (b : DmsBuilder) (d : Dms) : Prop :=
  d_sign_cfg d = b_sign_cfg b /\ d_vms_cfg d = b_vms_cfg b /\ d_fonts d = b_fonts b
  /\ d_multi_cfg d = b_multi_cfg b
  /\ Forall2 (SlotAfter (bw b) (bh b)) (b_graphics b) (d_graphics d).

(** The first violated rule, in the documented order. *)
Inductive BuildVerdict (b : DmsBuilder) : result Dms SignError -> Prop :=
| BVFace : ~ fits_face (b_sign_cfg b) (b_vms_cfg b) ->
    BuildVerdict b (Err (ECfg InvalidDimensions))
| BVPages : fits_face (b_sign_cfg b) (b_vms_cfg b) -> ~ pages_ok (b_multi_cfg b) ->
    BuildVerdict b (Err (ECfg InvalidPageCfg))
| BVFont e : fits_face (b_sign_cfg b) (b_vms_cfg b) -> pages_ok (b_multi_cfg b) ->
    TableVerdict (b_fonts b) (Err e) -> BuildVerdict b (Err (EFont e))
| BVGraphic e : fits_face (b_sign_cfg b) (b_vms_cfg b) -> pages_ok (b_multi_cfg b) ->
    valid_fonts (b_fonts b) -> GraphicsVerdict (bw b) (bh b) (b_graphics b) (Err e) ->
    BuildVerdict b (Err (EGraphic e))
| BVOk d : fits_face (b_sign_cfg b) (b_vms_cfg b) -> pages_ok (b_multi_cfg b) ->
    valid_fonts (b_fonts b) -> valid_graphics (bw b) (bh b) (b_graphics b) ->
    BuiltFrom b d -> BuildVerdict b (Ok d).

(** ** Lines per rectangle (C32) *)

(** [n] lines of height [lh], [ls] apart, are no taller than [height]. *)
Definition LinesFit (lh ls height n : Z) : Prop :=
  n = 0 \/ (1 <= n /\ n * lh + (n - 1) * ls <= height).

Definition Largest (P : Z -> Prop) (n : Z) : Prop := P n /\ forall m, P m -> m <= n.

(** The first font of the table with this number. *)
Definition FirstFont (t : FontTable) (n : Z) (f : Font) : Prop :=
  f_number f = n
  /\ exists pre post, t = pre ++ f :: post /\ (forall g, In g pre -> f_number g <> n).

Inductive RectLines (d : Dms) (r : Rectangle) (n : Z) : Z -> Prop :=
| RL_undefined : (forall f, In f (d_fonts d) -> f_number f <> n) -> RectLines d r n 0
| RL_full f k : FirstFont (d_fonts d) n f -> char_height_pixels (d_vms_cfg d) = 0 ->
    Largest (LinesFit (f_height f) (f_line_spacing f) (rheight r)) k -> RectLines d r n k
| RL_tall f : FirstFont (d_fonts d) n f -> char_height_pixels (d_vms_cfg d) <> 0 ->
    char_height_pixels (d_vms_cfg d) < f_height f -> RectLines d r n 0
| RL_matrix f k : FirstFont (d_fonts d) n f -> char_height_pixels (d_vms_cfg d) <> 0 ->
    f_height f <= char_height_pixels (d_vms_cfg d) ->
    Largest (LinesFit (char_height_pixels (d_vms_cfg d)) 0 (rheight r)) k -> RectLines d r n k.

(** ** Drawing tags (C27, C28) *)

(** The rectangle, zero sizes meaning up to the edge, lies on a [w] by [h] sign.
    The whole of a 0 by 0 sign counts as a rectangle on it, though it is empty. *)
Definition OnSign (w h : Z) (r : Rectangle) : Prop :=
  1 <= rx r <= w /\ 1 <= ry r <= h
  /\ (rwidth r = 0 \/ rx r + rwidth r - 1 <= w) /\ (rheight r = 0 \/ ry r + rheight r - 1 <= h)
  \/ w = 0 /\ h = 0 /\ r = mkRect 1 1 0 0.

(** Pixel [x, y] (counted from 0) is in the rectangle. *)
Definition Covers (w h : Z) (r : Rectangle) (x y : Z) : Prop :=
  rx r <= x + 1 /\ ry r <= y + 1
  /\ (if rwidth r =? 0 then x < w else x + 1 < rx r + rwidth r)
  /\ (if rheight r =? 0 then y < h else y + 1 < ry r + rheight r).

(** The first graphic of the table with this number. *)
Definition FirstGraphic (t : GraphicTable) (n : Z) (g : Graphic) : Prop :=
  g_number g = n
  /\ exists pre post, t = pre ++ g :: post /\ (forall k, In k pre -> g_number k <> n).

(** What [gN,x,y,id] does to a page. *)
Inductive GraphicTag (t : GraphicTable) (n x y : Z) (id : option Z) (ctx : ColorCtx) (p : Raster rgb)
  : result (Raster rgb) SyntaxError -> Prop :=
| GTUndefined : (forall g, In g t -> g_number g <> n) ->
    GraphicTag t n x y id ctx p (Err (SGraphicNotDefined n))
| GTVersion g k : FirstGraphic t n g -> id = Some k -> k <> graphic_version_id g ->
    GraphicTag t n x y id ctx p (Err SGraphicID)
| GTTooBig g : FirstGraphic t n g -> (forall k, id = Some k -> k = graphic_version_id g) ->
    (r_width p < x - 1 + g_width g \/ r_height p < y - 1 + g_height g) ->
    GraphicTag t n x y id ctx p (Err (SOther (lit "Graphic too big")))
| GTOk g q : FirstGraphic t n g -> (forall k, id = Some k -> k = graphic_version_id g) ->
    x - 1 + g_width g <= r_width p -> y - 1 + g_height g <= r_height p ->
    Overlaid p q (fun px py c => Inks g ctx (px - (x - 1)) (py - (y - 1)) c) ->
    GraphicTag t n x y id ctx p (Ok q).

(** What [crx,y,w,h,c] does to a page. *)
Inductive RectTag (r : Rectangle) (c : Color) (ctx : ColorCtx) (p : Raster rgb)
  : result (Raster rgb) SyntaxError -> Prop :=
| RTColor : (forall x, ~ Shows ctx c x) ->
    RectTag r c ctx p (Err (SUnsupportedTagValue (display (VColorRectangle r c))))
| RTOff : ~ OnSign (r_width p) (r_height p) r ->
    RectTag r c ctx p (Err (SUnsupportedTagValue (display (VColorRectangle r c))))
| RTOk x q : Shows ctx c x -> OnSign (r_width p) (r_height p) r ->
    Painted p q (Covers (r_width p) (r_height p) r) x -> RectTag r c ctx p (Ok q).
