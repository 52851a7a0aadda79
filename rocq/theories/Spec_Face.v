(** Building a sign in release builds, where sizes wrap around (C29). *)

From Verif Require Import Base Str Multi Color Raster Font Graphic Config Sign
  Spec_Color Spec_Font Spec_Tfon Spec_Graphic Spec_Sign.
Open Scope list_scope.

(** The size of the face, kept in 16 bits, is at most the size of the sign. *)
Definition wrapped_fits (s : SignCfg) (v : VmsCfg) : Prop :=
  face_width s v mod 65536 <= sign_width s /\ face_height s v mod 65536 <= sign_height s.

(** The first violated rule, when [face] is the rule for the face. *)
Inductive VerdictFor (face : Prop) (b : DmsBuilder) : result Dms SignError -> Prop :=
| VfFace : ~ face -> VerdictFor face b (Err (ECfg InvalidDimensions))
| VfPages : face -> ~ pages_ok (b_multi_cfg b) -> VerdictFor face b (Err (ECfg InvalidPageCfg))
| VfFont e : face -> pages_ok (b_multi_cfg b) -> TableVerdict (b_fonts b) (Err e) -> VerdictFor face b (Err (EFont e))
| VfGraphic e : face -> pages_ok (b_multi_cfg b) -> valid_fonts (b_fonts b) ->
    GraphicsVerdict (bw b) (bh b) (b_graphics b) (Err e) -> VerdictFor face b (Err (EGraphic e))
| VfOk d : face -> pages_ok (b_multi_cfg b) -> valid_fonts (b_fonts b) ->
    valid_graphics (bw b) (bh b) (b_graphics b) -> BuiltFrom b d -> VerdictFor face b (Ok d).
