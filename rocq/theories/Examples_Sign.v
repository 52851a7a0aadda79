(** A small sign used by the examples beside the theorems. *)

From Coq Require Import String.
From Verif Require Import Base Str Multi Color Raster Font Graphic Config Sign
  Spec_Color Spec_Font Spec_Tfon Spec_Graphic Spec_Sign Proofs_Str.
Open Scope list_scope.

(** Two glyphs and a blank, 3 pixels high. *)
Definition sx_font : Font :=
  mkFont 1 (lit "tiny") 3 1 1
    [mkChar 65 3 [87; 128]; mkChar 66 2 [252]; mkChar 32 1 [0]; mkChar 0 0 []].

(** A 3 by 2 bit pattern [101/010] with transparent background. *)
Definition sx_graphic : Graphic :=
  mkGraphic 1 (lit "pat") 2 3 Monochrome1Bit (Some (Legacy 0)) [168].

Definition sx_big : Graphic := mkGraphic 2 (lit "big") 40 50 Monochrome1Bit None (repeat 255 250).

Definition sx_multi (scheme : ColorScheme) : MultiCfg :=
  mkMultiCfg (Legacy 0) (Legacy 9) 5 5 1 JlLeft JpTop 30 0 2 scheme
    (tag_set [TCb; TCf; TFo; TG; THc; TJl; TJp; TNl; TNp; TPt; TSc; TTr; TCr; TPb]) 4 1000.

Definition sx_sign_cfg : SignCfg := mkSignCfg 0 4 1650 2920 60 60 2 2 2.
Definition sx_vms : VmsCfg := mkVmsCfg 0 0 12 20 70 70 (255, 112, 224) (0, 0, 0).

Definition sx_builder (scheme : ColorScheme) : DmsBuilder :=
  mkBuilder sx_sign_cfg sx_vms [sx_font; font_default 2] (sx_multi scheme)
    [sx_graphic; sx_big; graphic_default].

Definition sx_sign (scheme : ColorScheme) : Dms :=
  mkDms sx_sign_cfg sx_vms [sx_font; font_default 2] (sx_multi scheme)
    [sx_graphic; graphic_default; graphic_default].

Ltac bytes := repeat first [apply Forall_nil | apply Forall_cons; [unfold u8; lia|]].

Lemma sx_graphic_fields : graphic_fields sx_graphic.
Proof. unfold graphic_fields, u8, u16, color_bytes. cbn. splits; try lia. unfold u8; lia. bytes. Qed.

Lemma sx_fonts_fields : table_fields [sx_font; font_default 2].
Proof.
  unfold table_fields. repeat constructor; unfold u8, u16; cbn; try lia;
    repeat constructor; unfold u8, u16; cbn; try lia.
Qed.

Lemma sx_builder_fields s : builder_fields (sx_builder s).
Proof.
  unfold builder_fields, sign_fields, vms_fields, multi_fields, rgb_ok, color_bytes, u8, u16. cbn.
  splits; try lia.
  - apply sx_fonts_fields.
  - repeat apply Forall_cons; [apply sx_graphic_fields| | |apply Forall_nil].
    + unfold graphic_fields, u8, u16. cbn -[repeat]. splits; try lia; auto.
      apply Forall_forall. intros x I. apply repeat_spec in I. subst. unfold u8. lia.
    + unfold graphic_fields, u8, u16. cbn. splits; try lia; auto.
Qed.
