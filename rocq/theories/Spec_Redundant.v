(** Tags that set what is already in force (C77). *)

From Verif Require Import Base Str Multi Color Raster Font Graphic Config Sign Render Spec_Page.
Open Scope list_scope.

(** The last colour tag, if any. *)
Definition fg_tag (v : Value) : option (option Color) := match v with VColorForeground o => Some o | _ => None end.
Definition bg_tag (v : Value) : option (option Color) :=
  match v with VColorBackground o | VPageBackground o => Some o | _ => None end.

(** After the values [past] the tag [v] sets what is in force. *)
Inductive Redundant (d : Dms) (past : list Value) : Value -> Prop :=
| Re_cf : Redundant d past (VColorForeground (in_force fg_tag None past))
| Re_pb : Redundant d past (VPageBackground (in_force bg_tag None past))
| Re_fo o : font_of d past = or_else o (default_font (d_multi_cfg d), None) -> Redundant d past (VFont o)
| Re_jp o : o <> Some JpOther -> jp_of d past = or_else o (default_justification_page (d_multi_cfg d)) ->
    Redundant d past (VJustificationPage o)
| Re_sc n : in_force says_spacing None past = Some n -> Redundant d past (VSpacingCharacter n)
| Re_scend : in_force says_spacing None past = None -> Redundant d past VSpacingCharacterEnd
| Re_pt on off : times_of d past = (or_else on (default_page_on_time (d_multi_cfg d)), or_else off (default_page_off_time (d_multi_cfg d))) ->
    Redundant d past (VPageTime on off).

(** After [past], the second list is the first with such tags added. *)
Inductive Padded (d : Dms) : list Value -> list Value -> list Value -> Prop :=
| Pd_nil past : Padded d past [] []
| Pd_keep past v vs ws : Padded d (past ++ [v]) vs ws -> Padded d past (v :: vs) (v :: ws)
| Pd_add past v vs ws : Redundant d past v -> Padded d past vs ws -> Padded d past vs (v :: ws).
