(** When joined texts are drawn as the texts they are made of (C50). *)

From Coq Require Import String.
From Verif Require Import Base Str Multi Color Raster Font Graphic Config Sign Render
  Spec_Multi Spec_Font Spec_Sign Spec_Render Spec_Layout Spec_Page.
Open Scope list_scope.

(** Every glyph has some width and, on a sign with character cells, glyphs and
    the spaces between them are whole cells. *)
Definition WholeGlyphs (d : Dms) : Prop :=
  forall f, In f (d_fonts d) -> used_font f \/ default_font (d_multi_cfg d) = 0 ->
    (forall c, In c (f_characters f) -> used c -> 1 <= c_width c)
    /\ (1 < char_width_pixels (d_vms_cfg d) ->
          on_boundary (char_width_pixels (d_vms_cfg d)) (f_char_spacing f)
          /\ forall c, In c (f_characters f) -> used c -> on_boundary (char_width_pixels (d_vms_cfg d)) (c_width c)).

(** Where a text rectangle starts. *)
Definition starts_rect (a : list Value) : Prop :=
  a = [] \/ (exists b, a = b ++ [VNewPage]) \/ exists b r, a = b ++ [VTextRectangle r].

(** The layout of every text rectangle of a message is regular. *)
Definition Regular (d : Dms) (vs : list Value) : Prop :=
  forall a b c, vs = a ++ b ++ c -> starts_rect a -> no_page_break b -> no_text_rect b -> Orderly d a b.
