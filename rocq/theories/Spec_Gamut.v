(** Where the colours of a page come from (C65). *)

From Verif Require Import Base Str Multi Color Raster Font Graphic Config Sign Render
  Spec_Multi Spec_Color Spec_Graphic Spec_Sign Spec_Page.

(** The message has a piece that means [v]. *)
Definition Says (ms : str) (v : Value) : Prop :=
  exists ts t, Tokens ms ts /\ In t ts /\ TokenDenotes t (Ok v).

(** The colour a tag carries. *)
Inductive ColorIn : Value -> Color -> Prop :=
| Ci_cf c : ColorIn (VColorForeground (Some c)) c
| Ci_cb c : ColorIn (VColorBackground (Some c)) c
| Ci_pb c : ColorIn (VPageBackground (Some c)) c
| Ci_cr r c : ColorIn (VColorRectangle r c) c.

(** The sign's colours, before any tag. *)
Definition sign_colors (d : Dms) : ColorCtx := colors d (default_fg d) (default_bg d).

(** The colours a message can put on a page: the two defaults, the colours of
    its tags as the sign shows them, and the colours of the graphics it names
    (1-bit graphics use the colours of tags and defaults). *)
Inductive Source (d : Dms) (ms : str) : rgb -> Prop :=
| So_fg : Source d ms (foreground_default_rgb d)
| So_bg : Source d ms (background_default_rgb d)
| So_tag v c x : Says ms v -> ColorIn v c -> Shows (sign_colors d) c x -> Source d ms x
| So_graphic n pos g px py x : Says ms (VGraphic n pos) -> FirstGraphic (d_graphics d) n g ->
    g_type g <> Monochrome1Bit -> Inks g (sign_colors d) px py x -> Source d ms x.

(** The colours a sign of each scheme can show. *)
Inductive SchemeColor (d : Dms) : rgb -> Prop :=
| Sc_fg : SchemeColor d (foreground_default_rgb d)
| Sc_bg : SchemeColor d (background_default_rgb d)
| Sc_level v b0 b1 b2 f0 f1 f2 : cfg_color_scheme (d_multi_cfg d) = Monochrome8Bit -> u8 v ->
    background_default_rgb d = (b0, b1, b2) -> foreground_default_rgb d = (f0, f1, f2) ->
    SchemeColor d (level_up b0 f0 v, level_up b1 f1 v, level_up b2 f2 v)
| Sc_classic x : cfg_color_scheme (d_multi_cfg d) = ColorClassicScheme -> In x palette -> SchemeColor d x
| Sc_24 x : cfg_color_scheme (d_multi_cfg d) = Color24Bit -> rgb_ok x -> SchemeColor d x.
