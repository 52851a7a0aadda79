(** Property C65: the colours of a page come from the sign and the message. *)

From Coq Require Import String.
From Verif Require Import Base Str Multi Color Raster Font Graphic Config Sign Render
  Spec_Multi Spec_Color Spec_Font Spec_Tfon Spec_Graphic Spec_Sign Spec_Render Spec_Layout Spec_Page Spec_Gamut
  Proofs_Str Proofs_Gamut Examples_Sign Properties_Layout.
Open Scope list_scope.

(** Every pixel of every page, of both builds and also when a later page fails,
    is a default colour, a colour of a tag of the message as the sign shows it,
    or a colour of a graphic the message names. *)
Theorem c65_sources : forall md d n ms l pg x y, Built d ->
  pages_take md d n (pages_new d ms) = Val l -> In (Ok pg) l -> Source d ms (r_pixel (pg_raster pg) x y).
Proof. intros md d n ms l pg x y HB. exact (colors_of_pages d ms HB md n l pg x y). Qed.
Print Assumptions c65_sources.

(** It is a colour of the sign's colour scheme, unless it is the colour of a
    pixel of a 24-bit graphic. *)
Theorem c65_scheme : forall md d n ms l pg x y, Built d ->
  pages_take md d n (pages_new d ms) = Val l -> In (Ok pg) l ->
  SchemeColor d (r_pixel (pg_raster pg) x y)
  \/ exists k pos g px py r v b, Says ms (VGraphic k pos) /\ FirstGraphic (d_graphics d) k g
       /\ g_type g = Color24Bit /\ Stored g px py (Rgb r v b) /\ g_transparent g <> Some (Rgb r v b)
       /\ r_pixel (pg_raster pg) x y = (r, v, b).
Proof.
  intros md d n ms l pg x y HB H I.
  exact (source_scheme d ms HB _ (colors_of_pages d ms HB md n l pg x y H I)).
Qed.
Print Assumptions c65_scheme.

(** Without colour tags and graphics a page shows the two default colours only. *)
Theorem c65_defaults : forall md d n ms l pg x y, Built d ->
  (forall v, Says ms v -> (forall c, ~ ColorIn v c) /\ forall k pos, v <> VGraphic k pos) ->
  pages_take md d n (pages_new d ms) = Val l -> In (Ok pg) l ->
  r_pixel (pg_raster pg) x y = foreground_default_rgb d \/ r_pixel (pg_raster pg) x y = background_default_rgb d.
Proof.
  intros md d n ms l pg x y HB HN H I.
  destruct (colors_of_pages d ms HB md n l pg x y H I) as [| |v c x' HV HC _|k pos g px py x' HV _ _ _]; auto.
  - destruct (HN v HV) as [N _]. now apply N in HC.
  - destruct (HN _ HV) as [_ N]. now destruct (N k pos).
Qed.
Print Assumptions c65_defaults.

Lemma gx_built s : Built (sx_sign s).
Proof.
  exists Debug, (sx_builder s). split; [apply sx_builder_fields|]. destruct s; vm_compute; reflexivity.
Qed.

(** All the kinds of sources: on a sign with classic colours, background 2,
    text in the default foreground, a rectangle of colour 3. *)
Example c65_example : exists l pg, pages_take Debug (sx_sign ColorClassicScheme) 9
      (pages_new (sx_sign ColorClassicScheme) (lit "[cb2][cr8,1,2,2,3]A")) = Val l /\ In (Ok pg) l
  /\ r_pixel (pg_raster pg) 15 3 = (255, 255, 0) /\ r_pixel (pg_raster pg) 8 0 = (0, 255, 0)
  /\ r_pixel (pg_raster pg) 1 0 = (255, 208, 0) /\ foreground_default_rgb (sx_sign ColorClassicScheme) = (255, 208, 0).
Proof.
  destruct (pages_take Debug (sx_sign ColorClassicScheme) 9
      (pages_new (sx_sign ColorClassicScheme) (lit "[cb2][cr8,1,2,2,3]A"))) as [l| |] eqn:E; try (vm_compute in E; discriminate).
  assert (HE : exists pg, l = [Ok pg]) by (vm_compute in E; injection E as <-; eauto).
  destruct HE as (pg & ->). exists [Ok pg], pg. splits; auto; [now left| | | ];
    (vm_compute in E; injection E as <-; reflexivity).
Qed.

(** A 24-bit graphic on a monochrome sign: a colour outside the sign's scheme. *)
Definition gx_graphic : Graphic := mkGraphic 1 (lit "dot") 1 2 Color24Bit None [3; 2; 1; 6; 5; 4].
Definition gx_builder : DmsBuilder :=
  mkBuilder sx_sign_cfg sx_vms [sx_font] (sx_multi Monochrome1Bit) [gx_graphic].
Definition gx_sign : Dms := mkDms sx_sign_cfg sx_vms [sx_font] (sx_multi Monochrome1Bit) [gx_graphic].

Theorem c65_graphic_colors : exists d ms l pg x y, Built d /\ cfg_color_scheme (d_multi_cfg d) = Monochrome1Bit
  /\ pages_take Debug d 9 (pages_new d ms) = Val l /\ In (Ok pg) l
  /\ ~ SchemeColor d (r_pixel (pg_raster pg) x y).
Proof.
  destruct (pages_take Debug gx_sign 9 (pages_new gx_sign (lit "[g1]"))) as [l| |] eqn:E; try (vm_compute in E; discriminate).
  assert (HE : exists pg, l = [Ok pg] /\ r_pixel (pg_raster pg) 1 0 = (4, 5, 6)) by (vm_compute in E; injection E as <-; eauto).
  destruct HE as (pg & -> & HP). exists gx_sign, (lit "[g1]"), [Ok pg], pg, 1, 0.
  split; [|split; [reflexivity|split; [exact E|split; [now left|]]]].
  - exists Debug, gx_builder. split; [|vm_compute; reflexivity].
    unfold builder_fields, sign_fields, vms_fields, multi_fields, rgb_ok, color_bytes, u8, u16. cbn. splits; try lia.
    + unfold table_fields. repeat constructor; unfold u8, u16; cbn; try lia; repeat constructor; unfold u8, u16; cbn; try lia.
    + apply Forall_cons; [|apply Forall_nil]. unfold graphic_fields, u8, u16. cbn. splits; try lia; auto. bytes.
  - rewrite HP. intros H. inversion H; discriminate.
Qed.
Print Assumptions c65_graphic_colors.
