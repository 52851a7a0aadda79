(** Properties C25 to C30 and C32: graphics, drawing tags, building, line counts. *)

From Coq Require Import String.
From Verif Require Import Base Str Multi Color Raster Font Graphic Config Sign Render
  Spec_Color Spec_Font Spec_Tfon Spec_Graphic Spec_Sign
  Proofs_Str Proofs_Table Proofs_Graphic Proofs_Sign Proofs_Build Examples_Sign.
Open Scope list_scope.

(** ** C25: validation and memory safety *)

Theorem c25_validate : forall g w h r, graphic_fields g ->
  (graphic_validate g w h = r <-> GraphicVerdict w h g r).
Proof. exact graphic_validate_iff. Qed.
Print Assumptions c25_validate.

Theorem c25_accepts : forall g w h, graphic_fields g ->
  (graphic_validate g w h = Ok tt <-> valid_graphic w h g).
Proof.
  intros g w h H. rewrite graphic_validate_iff by auto. split; [intros V; now inversion V|apply GVOk].
Qed.
Print Assumptions c25_accepts.

(** No pixel of an accepted graphic is out of the bitmap, in any colours. *)
Theorem c25_pixels_in_bitmap : forall g w h ctx x y, graphic_fields g -> graphic_validate g w h = Ok tt ->
  ctx_bytes ctx -> 0 <= x < g_width g -> 0 <= y < g_height g ->
  exists o, pixel_fn g x y ctx = Val o /\ forall c, o = Some c <-> Inks g ctx x y c.
Proof.
  intros g w h ctx x y Hg V Hc Hx Hy. apply c25_accepts in V; auto. destruct V as (_ & _ & _ & C & K).
  destruct (pixel_fn_spec g ctx x y Hg C K Hc Hx Hy) as (o & E & P). exists o. split; [auto|].
  apply PixelIs_Inks; auto. apply Hg.
Qed.
Print Assumptions c25_pixels_in_bitmap.

Example c25_cases :
  graphic_validate sx_graphic 20 12 = Ok tt
  /\ graphic_validate sx_big 20 12 = Err GInvalidHeight
  /\ graphic_validate (mkGraphic 1 [] 2 3 Monochrome1Bit None [168; 0]) 20 12 = Err GInvalidBitmap
  /\ graphic_validate (mkGraphic 1 [] 2 3 Monochrome1Bit (Some (Rgb 0 0 0)) [168]) 20 12
     = Err GInvalidTransparentColor
  /\ graphic_validate (mkGraphic 1 [] 1 21 Monochrome1Bit None [168]) 20 12 = Err GInvalidWidth
  /\ graphic_validate (mkGraphic 0 [] 1 21 Monochrome1Bit None [168]) 20 12 = Err GInvalidNumber.
Proof. splits; reflexivity. Qed.

(** ** C26: to_raster *)

(** The size and every painted pixel, for every valid graphic; [raster_ctx] is
    the 24-bit context with white (monochrome) or amber on black. *)
Theorem c26_raster : forall g w h, graphic_fields g -> valid_graphic w h g ->
  exists q, to_raster g = Val q
    /\ Overlaid (with_color (g_width g) (g_height g) ((0, 0, 0), 0)) q
         (fun x y c => exists c', Inks g (raster_ctx g) x y c' /\ c = (c', 255)).
Proof. exact to_raster_spec. Qed.
Print Assumptions c26_raster.

(** The documented colour, except for 8-bit monochrome graphics. *)
Theorem c26_documented_partial : forall g w h q x y p, graphic_fields g -> valid_graphic w h g ->
  g_type g <> Monochrome8Bit -> to_raster g = Val q ->
  0 <= x < g_width g -> 0 <= y < g_height g -> DocPixel g x y p -> r_pixel q x y = p.
Proof. exact to_raster_doc. Qed.
Print Assumptions c26_documented_partial.

(** 8-bit levels are taken as palette indices; levels above 9 are left out. *)
Theorem c26_documented_refuted : exists g w h q x y p, graphic_fields g /\ valid_graphic w h g
  /\ to_raster g = Val q /\ 0 <= x < g_width g /\ 0 <= y < g_height g /\ DocPixel g x y p
  /\ r_pixel q x y <> p.
Proof.
  set (g := mkGraphic 1 [] 1 1 Monochrome8Bit None [200]).
  assert (Hg : graphic_fields g) by (unfold graphic_fields, u8, u16; cbn; splits; try lia; auto; bytes).
  assert (V : valid_graphic 1 1 g) by (unfold valid_graphic, bitmap_complete, color_kind_ok; cbn; splits; auto; lia).
  destruct (to_raster_spec g 1 1 Hg V) as (q & E & _).
  assert (S : Stored g 0 0 (Legacy 200)) by (apply (St_8 g 0 0 0%nat 200); auto).
  exists g, 1, 1, q, 0, 0, ((200, 200, 200), 255). splits; auto; try (cbn; lia).
  - eapply Doc_color; eauto; [discriminate|]. now apply En_8.
  - rewrite (to_raster_8 g 1 1 q 0 0 200) by (auto; try (cbn; lia); discriminate).
    replace (nth_error palette (Z.to_nat 200)) with (@None rgb) by reflexivity. discriminate.
Qed.
Print Assumptions c26_documented_refuted.

Theorem c26_levels_partial : forall g w h q x y v, graphic_fields g -> valid_graphic w h g ->
  g_type g = Monochrome8Bit -> to_raster g = Val q -> 0 <= x < g_width g -> 0 <= y < g_height g ->
  Stored g x y (Legacy v) -> g_transparent g <> Some (Legacy v) ->
  r_pixel q x y = match nth_error palette (Z.to_nat v) with
                  | Some c => (c, 255) | None => ((0, 0, 0), 0) end.
Proof. exact to_raster_8. Qed.
Print Assumptions c26_levels_partial.

Example c26_example :
  match to_raster sx_graphic with
  | Val q => map (fun y => map (fun x => snd (r_pixel q x y)) [0; 1; 2]) [0; 1]
             = [[255; 0; 255]; [0; 255; 0]] /\ r_pixel q 0 0 = ((255, 255, 255), 255)
  | _ => False
  end.
Proof. vm_compute. split; reflexivity. Qed.

(** ** C27: graphic tags

    [tag_graphic] is what the page loop does with one graphic tag: *)
Theorem c27_loop : forall md d n pos m vs ctx p,
  render_graphics_loop md d ((Val (Ok (VGraphic n pos)), m) :: vs) ctx p =
  let '(x, y, id) := match pos with Some q => q | None => (1, 1, None) end in
  let? q := tag_graphic md d n x y id ctx p in render_graphics_loop md d vs ctx q.
Proof. exact loop_graphic. Qed.
Print Assumptions c27_loop.

(** On a built sign, the result is the specified one; [Inks] gives the painted
    pixels, in the colours that the sign shows for the current colours. *)
Theorem c27_graphic_tag : forall md b d n x y id ctx p,
  builder_fields b -> build md b = Val (Ok d) ->
  1 <= n -> 1 <= x -> 1 <= y -> ctx_bytes ctx ->
  exists r, tag_graphic md d n x y id ctx p = Val r /\ GraphicTag (d_graphics d) n x y id ctx p r.
Proof.
  intros md b d n x y id ctx p Hb B Hn Hx Hy Hc.
  destruct (build_valid md b d Hb B) as (_ & _ & Gf & Gv & _).
  apply tag_graphic_spec; auto. intros g I U. destruct (Gv g I U) as (_ & _ & _ & C & K). auto.
Qed.
Print Assumptions c27_graphic_tag.

(** The specification is unambiguous. *)
Theorem c27_verdict_unique : forall t n x y id ctx p r s, GraphicTag t n x y id ctx p r ->
  GraphicTag t n x y id ctx p s ->
  match r, s with Err e, Err e' => e = e' | Ok _, Ok _ => True | _, _ => False end.
Proof. exact GraphicTag_err_fun. Qed.
Print Assumptions c27_verdict_unique.

(** Full claim: lit bits of a 1-bit graphic take the current foreground colour.
    False with the default colours of a monochrome sign: nothing is drawn. *)
Theorem c27_current_colors_refuted : exists md b d g p q,
  builder_fields b /\ build md b = Val (Ok d) /\ In g (d_graphics d) /\ g_type g = Monochrome1Bit
  /\ Stored g 0 0 (Legacy 1) /\ g_transparent g <> Some (Legacy 1)
  /\ tag_graphic md d (g_number g) 1 1 None (dms_color_ctx d) p = Val (Ok q)
  /\ r_pixel q 0 0 <> foreground_rgb (dms_color_ctx d).
Proof.
  exists Debug, (sx_builder Monochrome1Bit), (sx_sign Monochrome1Bit), sx_graphic,
    (with_color 20 12 (0, 0, 0)), (with_color 20 12 (0, 0, 0)).
  splits.
  - apply sx_builder_fields.
  - vm_compute. reflexivity.
  - cbn. auto.
  - reflexivity.
  - apply (St_1 sx_graphic 0 0 0%nat 168 0 true); auto; try reflexivity; lia.
  - discriminate.
  - vm_compute. reflexivity.
  - vm_compute. discriminate.
Qed.
Print Assumptions c27_current_colors_refuted.

(** True whenever the current colours are ones the sign's colour scheme can
    show (always so after [cf] and [cb] tags, and on 24-bit signs). *)
Theorem c27_current_colors_partial : forall g ctx x y c, ctx_bytes ctx ->
  g_type g = Monochrome1Bit -> (exists f, Shows ctx (fg_current ctx) f) ->
  (exists f, Shows ctx (bg_current ctx) f) ->
  Inks g ctx x y c <->
  0 <= x < g_width g /\ 0 <= y < g_height g
  /\ ((Stored g x y (Legacy 1) /\ g_transparent g <> Some (Legacy 1) /\ c = foreground_rgb ctx)
      \/ (Stored g x y (Legacy 0) /\ g_transparent g <> Some (Legacy 0) /\ c = background_rgb ctx)).
Proof. exact inks_current. Qed.
Print Assumptions c27_current_colors_partial.

Example c27_example :
  match tag_graphic Debug (sx_sign Color24Bit) 1 19 1 None (dms_color_ctx (sx_sign Color24Bit))
          (with_color 20 12 (0, 0, 0)),
        tag_graphic Debug (sx_sign Color24Bit) 1 18 11 None (dms_color_ctx (sx_sign Color24Bit))
          (with_color 20 12 (0, 0, 0)),
        tag_graphic Debug (sx_sign Color24Bit) 2 1 1 None (dms_color_ctx (sx_sign Color24Bit))
          (with_color 20 12 (0, 0, 0)) with
  | Val (Err a), Val (Ok q), Val (Err b) =>
      a = SOther (lit "Graphic too big") /\ b = SGraphicNotDefined 2
      /\ r_pixel q 17 10 = (255, 208, 0) /\ r_pixel q 18 10 = (0, 0, 0)
      /\ r_pixel q 18 11 = (255, 208, 0)
  | _, _, _ => False
  end.
Proof. vm_compute. splits; reflexivity. Qed.

(** ** C28: colour rectangle tags *)

Theorem c28_loop : forall md d r c m vs ctx p,
  render_graphics_loop md d ((Val (Ok (VColorRectangle r c)), m) :: vs) ctx p =
  let? q := tag_rect md r c ctx p in render_graphics_loop md d vs ctx q.
Proof. exact loop_rect. Qed.
Print Assumptions c28_loop.

Theorem c28_rectangle_partial : forall md r c ctx p,
  u16_rect r -> u16 (r_width p) -> u16 (r_height p) ->
  arith_ok md (r_width p) (r_height p) r -> 1 <= rx r -> 1 <= ry r ->
  ctx_ok ctx -> color_bytes c ->
  exists o, tag_rect md r c ctx p = Val o /\ RectTag r c ctx p o.
Proof. exact tag_rect_spec. Qed.
Print Assumptions c28_rectangle_partial.

Theorem c28_verdict_unique : forall r c ctx p o o', RectTag r c ctx p o -> RectTag r c ctx p o' ->
  match o, o' with Err e, Err e' => e = e' | Ok _, Ok _ => True | _, _ => False end.
Proof. exact RectTag_fun. Qed.
Print Assumptions c28_verdict_unique.

(** A rectangle far off the sign panics instead of being rejected (Debug); on a
    sign 65535 pixels wide, rectangles on the sign are rejected (Release). *)
Theorem c28_rectangle_refuted : exists r c ctx p, u16_rect r /\ u16 (r_width p) /\ u16 (r_height p)
  /\ 1 <= rx r /\ 1 <= ry r /\ ctx_ok ctx /\ color_bytes c /\ tag_rect Debug r c ctx p = Panic.
Proof.
  exists (mkRect 65535 1 1 1), (Legacy 1), (dms_color_ctx (sx_sign Color24Bit)), (with_color 20 12 (0, 0, 0)).
  unfold u16_rect, u16, ctx_ok, rgb_ok, color_bytes, u8. cbn. splits; try lia; reflexivity.
Qed.
Print Assumptions c28_rectangle_refuted.

Theorem c28_release_refuted : exists r c ctx p, u16_rect r /\ u16 (r_width p) /\ u16 (r_height p)
  /\ OnSign (r_width p) (r_height p) r /\ (exists x, Shows ctx c x)
  /\ exists e, tag_rect Release r c ctx p = Val (Err e).
Proof.
  exists (mkRect 1 1 1 1), (Legacy 1), (dms_color_ctx (sx_sign Color24Bit)), (with_color 65535 12 (0, 0, 0)).
  unfold u16_rect, u16, OnSign. cbn [with_color r_width r_height rx ry rwidth rheight]. splits; try lia.
  - exists (255, 0, 0). apply Sw_classic; auto; lia.
  - eexists. vm_compute. reflexivity.
Qed.
Print Assumptions c28_release_refuted.

Example c28_example :
  match tag_rect Debug (mkRect 3 2 0 4) (Legacy 1) (dms_color_ctx (sx_sign Color24Bit))
          (with_color 20 12 (0, 0, 0)),
        tag_rect Debug (mkRect 3 2 19 4) (Legacy 1) (dms_color_ctx (sx_sign Color24Bit))
          (with_color 20 12 (0, 0, 0)) with
  | Val (Ok q), Val (Err e) =>
      r_pixel q 2 1 = (255, 0, 0) /\ r_pixel q 19 4 = (255, 0, 0) /\ r_pixel q 1 1 = (0, 0, 0)
      /\ r_pixel q 2 5 = (0, 0, 0) /\ e = SUnsupportedTagValue (lit "[cr3,2,19,4,1]")
  | _, _ => False
  end.
Proof. vm_compute. splits; reflexivity. Qed.

(** ** C29: building *)

(** Debug mode: every result is the specified one ... *)
Theorem c29_debug_partial : forall b r, builder_fields b -> build Debug b = Val r -> BuildVerdict b r.
Proof.
  intros b r Hb E. destruct (build_debug b Hb) as [(s & E' & V)|(E' & _)]; [|congruence].
  rewrite E in E'. now inversion E'; subst.
Qed.
Print Assumptions c29_debug_partial.

(** ... and it panics exactly on 16-bit overflow of the face size or on the
    panic of font validation (C19). *)
Theorem c29_panic_partial : forall b, builder_fields b ->
  (build Debug b = Panic
   <-> 65536 <= face_width (b_sign_cfg b) (b_vms_cfg b)
       \/ face_width (b_sign_cfg b) (b_vms_cfg b) <= sign_width (b_sign_cfg b)
          /\ 65536 <= face_height (b_sign_cfg b) (b_vms_cfg b)
       \/ fits_face (b_sign_cfg b) (b_vms_cfg b) /\ pages_ok (b_multi_cfg b)
          /\ font_table_validate (b_fonts b) = Panic).
Proof. exact build_panic. Qed.
Print Assumptions c29_panic_partial.

(** Both modes, when the face size fits 16 bits and fonts do not panic. *)
Theorem c29_build_partial : forall md b, builder_fields b -> face_small b ->
  font_table_validate (b_fonts b) <> Panic ->
  exists r, build md b = Val r /\ BuildVerdict b r.
Proof. exact build_spec. Qed.
Print Assumptions c29_build_partial.

(** A 1000 pixel wide sign with 70 mm pitch needs 70 m of face: Debug panics,
    Release accepts it on a face of 5 m. *)
Theorem c29_build_refuted : exists b d, builder_fields b /\ build Debug b = Panic
  /\ build Release b = Val (Ok d) /\ ~ fits_face (b_sign_cfg b) (b_vms_cfg b).
Proof.
  exists (mkBuilder (mkSignCfg 0 4 1650 5000 60 60 2 2 2) (mkVmsCfg 0 0 12 1000 70 70 (255, 112, 224) (0, 0, 0))
            [sx_font] (sx_multi Color24Bit) []).
  eexists. splits.
  - unfold builder_fields, sign_fields, vms_fields, multi_fields, rgb_ok, color_bytes, u8, u16. cbn.
    splits; try lia; [|constructor]. constructor; [|constructor].
    pose proof sx_fonts_fields as F. now inversion F.
  - vm_compute. reflexivity.
  - vm_compute. reflexivity.
  - unfold fits_face, face_width. cbn. lia.
Qed.
Print Assumptions c29_build_refuted.

Theorem c29_graphics_verdict_unique : forall w h t r s,
  GraphicsVerdict w h t r -> GraphicsVerdict w h t s -> r = s.
Proof. exact GraphicsVerdict_fun. Qed.
Print Assumptions c29_graphics_verdict_unique.

Example c29_example : face_small (sx_builder Color24Bit)
  /\ build Debug (sx_builder Color24Bit) = Val (Ok (sx_sign Color24Bit))
  /\ build Debug (with_graphic_definition (sx_builder Color24Bit) [sx_graphic; sx_graphic])
     = Val (Err (EGraphic GDuplicateNumber))
  /\ build Debug (with_font_definition (sx_builder Color24Bit) [sx_font; sx_font])
     = Val (Err (EFont (FDuplicateNumber 1)))
  /\ build Debug (with_sign_cfg (sx_builder Color24Bit) (mkSignCfg 0 4 899 2920 60 60 2 2 2))
     = Val (Err (ECfg InvalidDimensions)).
Proof. unfold face_small, face_width, face_height. cbn -[build]. splits; try lia; vm_compute; reflexivity. Qed.

(** ** C30: rebuilding *)

Theorem c30_rebuild : forall md b d, build md b = Val (Ok d) ->
  build md (into_builder d) = Val (Ok d).
Proof. exact rebuild. Qed.
Print Assumptions c30_rebuild.

Theorem c30_built_from : forall md b d, builder_fields b -> build md b = Val (Ok d) -> BuiltFrom b d.
Proof. exact build_result. Qed.
Print Assumptions c30_built_from.

Theorem c30_built_valid : forall md b d, builder_fields b -> build md b = Val (Ok d) ->
  valid_fonts (d_fonts d) /\ pages_ok (d_multi_cfg d)
  /\ Forall graphic_fields (d_graphics d)
  /\ (forall g, In g (d_graphics d) -> g_number g <> 0 -> valid_graphic (pixel_width d) (pixel_height d) g)
  /\ (forall g, In g (d_graphics d) -> g_width g <= pixel_width d /\ g_height g <= pixel_height d).
Proof. exact build_valid. Qed.
Print Assumptions c30_built_valid.

Example c30_example : build Debug (into_builder (sx_sign Color24Bit)) = Val (Ok (sx_sign Color24Bit))
  /\ In sx_big (b_graphics (sx_builder Color24Bit)) /\ ~ In sx_big (d_graphics (sx_sign Color24Bit)).
Proof.
  split; [vm_compute; reflexivity|]. split; [cbn; auto|]. cbn. intros [E|[E|[E|[]]]]; discriminate.
Qed.

(** ** C32: lines per rectangle *)

Theorem c32_lines_partial : forall d r n k,
  table_fields (d_fonts d) -> vms_fields (d_vms_cfg d) -> u16_rect r ->
  rect_lines d r n <> Hang -> (rect_lines d r n = Val k <-> RectLines d r n k).
Proof. exact rect_lines_iff. Qed.
Print Assumptions c32_lines_partial.

(** It ends, with the specified number, for every font number but 0 on a sign
    with valid fonts. *)
Theorem c32_ends_partial : forall d r n,
  table_fields (d_fonts d) -> vms_fields (d_vms_cfg d) -> u16_rect r ->
  valid_fonts (d_fonts d) -> n <> 0 -> exists k, rect_lines d r n = Val k /\ RectLines d r n k.
Proof. exact rect_lines_ends. Qed.
Print Assumptions c32_ends_partial.

(** Exactly when it does not end. *)
Theorem c32_hang_partial : forall d r n,
  table_fields (d_fonts d) -> vms_fields (d_vms_cfg d) -> u16_rect r ->
  (rect_lines d r n = Hang
   <-> exists f, FirstFont (d_fonts d) n f /\ char_height_pixels (d_vms_cfg d) = 0
         /\ f_height f = 0 /\ f_line_spacing f = 0).
Proof. exact rect_lines_hang. Qed.
Print Assumptions c32_hang_partial.

(** A built full-matrix sign with an unused font slot: font number 0. *)
Theorem c32_ends_refuted : exists b d r, builder_fields b /\ build Debug b = Val (Ok d)
  /\ rect_lines d r 0 = Hang
  /\ forall fuel, count_lines fuel 0 0 (rheight r) 0 = Hang.
Proof.
  exists (sx_builder Color24Bit), (sx_sign Color24Bit), (mkRect 1 1 20 12).
  split; [apply sx_builder_fields|]. split; [vm_compute; reflexivity|]. split; [vm_compute; reflexivity|].
  intros fuel. apply count_lines_hang. cbn. lia.
Qed.
Print Assumptions c32_ends_refuted.

Theorem c32_unique : forall d r n k k', RectLines d r n k -> RectLines d r n k' -> k = k'.
Proof. exact RectLines_fun. Qed.
Print Assumptions c32_unique.

Example c32_example : rect_lines (sx_sign Color24Bit) (mkRect 1 1 20 12) 1 = Val 3
  /\ rect_lines (sx_sign Color24Bit) (mkRect 1 1 20 10) 1 = Val 2
  /\ rect_lines (sx_sign Color24Bit) (mkRect 1 1 20 12) 9 = Val 0
  /\ valid_fonts (d_fonts (sx_sign Color24Bit)).
Proof.
  splits; try reflexivity. apply (table_validate_ok _ sx_fonts_fields). vm_compute. reflexivity.
Qed.
