(** What a page break leaves behind (C69). *)

From Coq Require Import String.
From Verif Require Import Base Str Multi Color Raster Font Graphic Config Sign Render
  Spec_Multi Spec_Color Spec_Sign Spec_Render Spec_Page.
Open Scope list_scope.

(** The settings that stay in force on the next page are the same after [vs] and [ws]. *)
Definition SameSettings (d : Dms) (vs ws : list Value) : Prop :=
  fg_of d vs = fg_of d ws /\ bg_of d vs = bg_of d ws /\ font_of d vs = font_of d ws
  /\ jl_of d vs = jl_of d ws /\ jp_of d vs = jp_of d ws /\ times_of d vs = times_of d ws
  /\ in_force says_spacing None vs = in_force says_spacing None ws.

(** The result of a rendering that starts with the pages [ps]. *)
Definition after_pages (ps : list Page) (m : M (list (result Page SyntaxError))) : M (list (result Page SyntaxError)) :=
  match m with Val l => Val (map Ok ps ++ l) | Panic => Panic | Hang => Hang end.
