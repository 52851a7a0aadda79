(** Proofs about graphic rasters, drawing tags, building and line counts. *)

From Coq Require Import String.
From Verif Require Import Base Str Multi Color Oer Crc Raster Font Graphic Config Sign Render
  Spec_Color Spec_Font Spec_Tfon Spec_Graphic Spec_Sign
  Proofs_Str Proofs_Color Proofs_Font Proofs_Glyph Proofs_Table Proofs_Graphic.
From Coq Require Import ZifyBool ZifyNat.
Ltac Zify.zify_post_hook ::= Z.div_mod_to_equations.
Open Scope list_scope.

(** ** to_raster *)

(** The colours [to_raster] uses. *)
Definition raster_ctx (g : Graphic) : ColorCtx :=
  ctx_new Color24Bit
    (match g_type g with
     | Monochrome1Bit | Monochrome8Bit => (255, 255, 255)
     | _ => (255, 208, 0)
     end) (0, 0, 0).

Lemma raster_ctx_bytes g : ctx_bytes (raster_ctx g).
Proof.
  unfold ctx_bytes, ctx_ok, raster_ctx, rgb_ok, color_bytes, u8.
  destruct (g_type g); cbn; splits; lia.
Qed.

Lemma to_raster_spec g w h : graphic_fields g -> valid_graphic w h g ->
  exists q, to_raster g = Val q
    /\ Overlaid (with_color (g_width g) (g_height g) ((0, 0, 0), 0)) q
         (fun x y c => exists c', Inks g (raster_ctx g) x y c' /\ c = (c', 255)).
Proof.
  intros Hg (_ & Hh & Hw & C & K).
  destruct (draw_overlaid g (raster_ctx g) (fun c : rgb => (c, 255)) 0 0
              (with_color (g_width g) (g_height g) ((0, 0, 0), 0))) as (q & E & D); auto.
  - apply raster_ctx_bytes.
  - unfold box_on, with_color. cbn [r_width r_height]. lia.
  - exists q. split.
    + etransitivity; [|exact E]. unfold to_raster, raster_ctx. now destruct (g_type g).
    + destruct D as (W & H & D). unfold Overlaid. splits; auto. intros x y. specialize (D x y).
      rewrite !Z.sub_0_r in D. exact D.
Qed.

Lemma Encodes_shows g c r : g_type g <> Monochrome8Bit -> Encodes g c r ->
  Displays g (raster_ctx g) c r.
Proof.
  intros T E. inversion E as [T'|T'|v T'|v x T' Hv N|r' v b T']; subst; try contradiction.
  - apply Dp_fg; auto. unfold raster_ctx. rewrite T'. now apply Sw_24.
  - apply Dp_bg; auto. unfold raster_ctx. rewrite T'. now apply Sw_24.
  - apply Dp_8; auto. apply Sw_classic; auto.
  - now apply Dp_24.
Qed.

Lemma to_raster_doc g w h q x y p : graphic_fields g -> valid_graphic w h g ->
  g_type g <> Monochrome8Bit ->
  to_raster g = Val q -> 0 <= x < g_width g -> 0 <= y < g_height g ->
  DocPixel g x y p -> r_pixel q x y = p.
Proof.
  intros Hg V T E Hx Hy D. destruct (to_raster_spec g w h Hg V) as (q' & E' & W & H & O).
  rewrite E in E'. inversion E'; subst q'. destruct (O x y) as [O1 O2].
  inversion D as [c S Tc|c r S Tc En]; subst.
  - apply O2. intros c0 (c' & (_ & _ & s & S' & N & _) & _).
    rewrite (Stored_fun _ _ _ _ _ S' S) in N. contradiction.
  - apply O1. exists r. split; [|reflexivity]. unfold Inks. splits; try lia. exists c. splits; auto.
    now apply Encodes_shows.
Qed.

(** What happens for 8-bit graphics: the value is taken as a palette index. *)
Lemma to_raster_8 g w h q x y v : graphic_fields g -> valid_graphic w h g ->
  g_type g = Monochrome8Bit -> to_raster g = Val q -> 0 <= x < g_width g -> 0 <= y < g_height g ->
  Stored g x y (Legacy v) -> g_transparent g <> Some (Legacy v) ->
  r_pixel q x y = match nth_error palette (Z.to_nat v) with
                  | Some c => (c, 255) | None => ((0, 0, 0), 0) end.
Proof.
  intros Hg V T E Hx Hy S N. destruct (to_raster_spec g w h Hg V) as (q' & E' & W & H & O).
  rewrite E in E'. inversion E'; subst q'. destruct (O x y) as [O1 O2].
  assert (Bv : u8 v). { destruct Hg as (_ & _ & _ & _ & Hb). exact (Stored_bytes _ _ _ _ Hb S). }
  destruct (nth_error palette (Z.to_nat v)) as [c|] eqn:P.
  - apply O1. exists c. split; [|reflexivity]. unfold Inks. splits; try lia. exists (Legacy v). splits; auto.
    apply Dp_8; auto. apply Sw_classic; auto. unfold u8 in Bv. lia.
  - apply O2. intros c (c' & (_ & _ & s & S' & _ & D) & _). rewrite (Stored_fun _ _ _ _ _ S' S) in D.
    remember (Legacy v) as lv eqn:Ev.
    destruct D as [x' T' _|x' T' _|v' x' T' Sw|r' v' b' T']; try congruence. inversion Ev; subst v'.
    remember (Legacy v) as lw eqn:Ew.
    destruct Sw as [Cs|Cs|v' b0 b1 b2 f0 f1 f2 Cs|v' x2 Cs Hv P'|r' v' b' Cs]; try discriminate.
    inversion Ew; subst v'. congruence.
Qed.

(** ** Graphic tags *)

Lemma FirstGraphic_lookup t n g : graphic_lookup t n = Some g <-> FirstGraphic t n g.
Proof.
  rewrite graphic_lookup_first. unfold FirstGraphic. split.
  - intros (pre & post & E & N & F). eauto.
  - intros (N & pre & post & E & F). eauto.
Qed.

Lemma graphic_lookup_none t n : graphic_lookup t n = None <-> forall g, In g t -> g_number g <> n.
Proof.
  unfold graphic_lookup. split.
  - intros E f I. apply find_none with (x := f) in E; auto. lia.
  - intros H. destruct (find (fun f => g_number f =? n) t) eqn:E; [|reflexivity].
    apply find_some in E. destruct E as [I E]. specialize (H _ I). lia.
Qed.

Lemma FirstGraphic_fun t n g k : FirstGraphic t n g -> FirstGraphic t n k -> g = k.
Proof. rewrite <- !FirstGraphic_lookup. congruence. Qed.

Lemma FirstGraphic_In t n g : FirstGraphic t n g -> In g t /\ g_number g = n.
Proof. intros (E & pre & post & -> & _). rewrite in_app_iff. cbn. auto. Qed.

(** One graphic tag. *)
Definition tag_graphic (md : mode) (d : Dms) (n x y : Z) (id : option Z) (ctx : ColorCtx) (p : Raster rgb)
  : M (result (Raster rgb) SyntaxError) :=
  let? g := Val (get_graphic d n id) in
  map_err from_graphic_error (render_graphic md g p x y ctx).

Lemma tag_graphic_spec md d n x y id ctx p :
  Forall graphic_fields (d_graphics d) ->
  (forall g, In g (d_graphics d) -> g_number g <> 0 ->
     bitmap_complete g /\ color_kind_ok g) ->
  1 <= n -> 1 <= x -> 1 <= y -> ctx_bytes ctx ->
  exists r, tag_graphic md d n x y id ctx p = Val r /\ GraphicTag (d_graphics d) n x y id ctx p r.
Proof.
  intros Hf Hv Hn Hx Hy Hc. unfold tag_graphic, get_graphic.
  destruct (graphic_lookup (d_graphics d) n) as [g|] eqn:L.
  - apply FirstGraphic_lookup in L. destruct (FirstGraphic_In _ _ _ L) as [I En].
    destruct (Hv g I ltac:(lia)) as [C K]. rewrite Forall_forall in Hf. specialize (Hf g I).
    assert (R : (forall k, id = Some k -> k = graphic_version_id g) ->
      exists r, (let? g0 := Val (@Ok Graphic SyntaxError g) in
                 map_err from_graphic_error (render_graphic md g0 p x y ctx)) = Val r
                /\ GraphicTag (d_graphics d) n x y id ctx p r).
    { intros Hid. cbn [try]. unfold render_graphic.
      assert (A : (match md with Debug => if (0 <? x) && (0 <? y) then Val tt else Panic
                   | Release => Val tt end) = Val tt).
      { destruct md; [|reflexivity]. now replace ((0 <? x) && (0 <? y)) with true by lia. }
      rewrite A. cbn [bind]. cbv zeta.
      destruct ((r_width p <? x - 1 + g_width g) || (r_height p <? y - 1 + g_height g)) eqn:B.
      - eexists. split; [reflexivity|]. cbn [map_err bind from_graphic_error].
        eapply GTTooBig; eauto. lia.
      - destruct (draw_overlaid g ctx (fun c : rgb => c) (x - 1) (y - 1) p) as (q & E & D); auto.
        + destruct Hf as (_ & Uh & Uw & _). unfold box_on, u16 in *. lia.
        + rewrite E. unfold map_err. cbn [bind]. eexists. split; [reflexivity|].
          eapply GTOk; eauto; try lia. destruct D as (W & H & D). unfold Overlaid. splits; auto.
          intros px py. destruct (D px py) as [D1 D2]. split.
          * intros c Ic. apply D1. eauto.
          * intros Nc. apply D2. intros c (c' & Ic & ->). exact (Nc c' Ic). }
    destruct id as [k|].
    + destruct (Z.eqb_spec k (graphic_version_id g)) as [Ek|Nk].
      * apply R. intros k' E'. inversion E'. now subst.
      * eexists. split; [reflexivity|]. eapply GTVersion; eauto.
    + apply R. discriminate.
  - eexists. split; [destruct id; reflexivity|]. apply GTUndefined. now apply graphic_lookup_none.
Qed.

Lemma GraphicTag_err_fun t n x y id ctx p r s : GraphicTag t n x y id ctx p r ->
  GraphicTag t n x y id ctx p s ->
  match r, s with Err e, Err e' => e = e' | Ok _, Ok _ => True | _, _ => False end.
Proof.
  intros Hr Hs.
  destruct Hr as [U|g k F -> N|g F V B|g q F V B1 B2 O];
    inversion Hs as [U'|g' k' F' E' N'|g' F' V' B'|g' q' F' V' B1' B2' O']; subst; auto;
    try (exfalso; destruct (FirstGraphic_In _ _ _ F) as [I En]; now apply (U' _ I));
    try (exfalso; destruct (FirstGraphic_In _ _ _ F') as [I En]; now apply (U _ I));
    pose proof (FirstGraphic_fun _ _ _ _ F F'); subst g'; try lia;
    try (exfalso; apply N; now apply V'); try (exfalso; apply N'; now apply V).
Qed.

(** ** Colour rectangles *)

Definition tag_rect (md : mode) (r : Rectangle) (c : Color) (ctx : ColorCtx) (p : Raster rgb)
  : M (result (Raster rgb) SyntaxError) :=
  let '(ctx', res) := set_foreground ctx (Some c) (VColorRectangle r c) in
  let? _ := Val res in
  render_rect md p r (foreground_rgb ctx') (VColorRectangle r c).

(** The machine arithmetic is exact: on every sign narrower than 65535 pixels
    in Release mode, and when the edges fit 16 bits in Debug mode. *)
Definition arith_ok (md : mode) (w h : Z) (r : Rectangle) : Prop :=
  w < 65535 /\ h < 65535 /\ (md = Release \/ edges_fit r).

Lemma chk16_release v : 0 <= v < 131072 ->
  chk16 Release v = Val (if v <? 65536 then v else v - 65536).
Proof.
  intros H. unfold chk16, chk. destruct (Z.ltb_spec v 65536).
  - now replace (0 <=? v) with true by lia.
  - replace (0 <=? v) with true by lia. cbn [andb]. f_equal. lia.
Qed.

Lemma intersection_on md r w h : u16_rect r -> u16 w -> u16 h -> arith_ok md w h r ->
  1 <= rx r -> 1 <= ry r ->
  exists i, intersection md (extend_width_height r (mkRect 1 1 w h)) (mkRect 1 1 w h) = Val i
    /\ (rect_eqb i (extend_width_height r (mkRect 1 1 w h)) = true <-> OnSign w h r).
Proof.
  intros (Ux & Uy & Uw & Uh) Hw Hh (Lw & Lh & A) Hx Hy.
  unfold edges_fit, u16 in *.
  set (e := extend_width_height r (mkRect 1 1 w h)).
  assert (Ex : rx e = rx r) by reflexivity. assert (Ey : ry e = ry r) by reflexivity.
  assert (Ew : rwidth e = if 0 <? rwidth r then rwidth r else Z.max 0 (w - (rx r - 1))).
  { unfold e, extend_width_height, sat_sub. cbn [rx ry rwidth rheight]. destruct (0 <? rwidth r); lia. }
  assert (Eh : rheight e = if 0 <? rheight r then rheight r else Z.max 0 (h - (ry r - 1))).
  { unfold e, extend_width_height, sat_sub. cbn [rx ry rwidth rheight]. destruct (0 <? rheight r); lia. }
  clearbody e.
  assert (C1 : exists ar, chk16 md (rx e + rwidth e) = Val ar
            /\ ar = (if rx e + rwidth e <? 65536 then rx e + rwidth e else rx e + rwidth e - 65536)).
  { destruct A as [->|A].
    - eexists. split; [|reflexivity]. apply chk16_release. rewrite Ew. destruct (0 <? rwidth r); lia.
    - eexists. split; [|reflexivity]. rewrite chk16_in by (rewrite Ew; destruct (Z.ltb_spec 0 (rwidth r)); lia).
      f_equal. destruct (Z.ltb_spec (rx e + rwidth e) 65536); [reflexivity|].
      exfalso. destruct (Z.ltb_spec 0 (rwidth r)); lia. }
  assert (C2 : exists ab, chk16 md (ry e + rheight e) = Val ab
            /\ ab = (if ry e + rheight e <? 65536 then ry e + rheight e else ry e + rheight e - 65536)).
  { destruct A as [->|A].
    - eexists. split; [|reflexivity]. apply chk16_release. rewrite Eh. destruct (0 <? rheight r); lia.
    - eexists. split; [|reflexivity]. rewrite chk16_in by (rewrite Eh; destruct (Z.ltb_spec 0 (rheight r)); lia).
      f_equal. destruct (Z.ltb_spec (ry e + rheight e) 65536); [reflexivity|].
      exfalso. destruct (Z.ltb_spec 0 (rheight r)); lia. }
  destruct C1 as (ar & C1 & Ar), C2 as (ab & C2 & Ab).
  unfold intersection. cbn [rx ry rwidth rheight]. rewrite C1. cbn [bind].
  rewrite (chk16_in md (1 + w)) by lia. cbn [bind]. rewrite C2. cbn [bind].
  rewrite (chk16_in md (1 + h)) by lia. cbn [bind].
  assert (HO : OnSign w h r <-> 1 <= rx r <= w /\ 1 <= ry r <= h
    /\ (rwidth r = 0 \/ rx r + rwidth r - 1 <= w) /\ (rheight r = 0 \/ ry r + rheight r - 1 <= h)
    \/ w = 0 /\ h = 0 /\ rx r = 1 /\ ry r = 1 /\ rwidth r = 0 /\ rheight r = 0).
  { unfold OnSign. destruct r as [a b c k]. cbn [rx ry rwidth rheight].
    assert (mkRect a b c k = mkRect 1 1 0 0 <-> a = 1 /\ b = 1 /\ c = 0 /\ k = 0) as ->; [|reflexivity].
    split; [intros [= -> -> -> ->]; auto|intros (-> & -> & -> & ->); auto]. }
  setoid_rewrite HO. clear HO.
  destruct ((Z.max (rx e) 1 <? Z.min ar (1 + w)) && (Z.max (ry e) 1 <? Z.min ab (1 + h))) eqn:B.
  - rewrite !chk16_in by (destruct (rx e + rwidth e <? 65536), (ry e + rheight e <? 65536); lia).
    cbn [bind]. eexists. split; [reflexivity|]. unfold rect_eqb. cbn [rx ry rwidth rheight].
    destruct (Z.ltb_spec 0 (rwidth r)), (Z.ltb_spec 0 (rheight r)),
      (Z.ltb_spec (rx e + rwidth e) 65536), (Z.ltb_spec (ry e + rheight e) 65536); lia.
  - eexists. split; [reflexivity|]. unfold rect_eqb, rect_default. cbn [rx ry rwidth rheight].
    destruct (Z.ltb_spec 0 (rwidth r)), (Z.ltb_spec 0 (rheight r)),
      (Z.ltb_spec (rx e + rwidth e) 65536), (Z.ltb_spec (ry e + rheight e) 65536); lia.
Qed.

Lemma tag_rect_spec md r c ctx p : u16_rect r -> u16 (r_width p) -> u16 (r_height p) ->
  arith_ok md (r_width p) (r_height p) r -> 1 <= rx r -> 1 <= ry r ->
  ctx_ok ctx -> color_bytes c ->
  exists o, tag_rect md r c ctx p = Val o /\ RectTag r c ctx p o.
Proof.
  intros Ur Uw Uh A Hx Hy Ho Hc. unfold tag_rect.
  destruct (set_foreground ctx (Some c) (VColorRectangle r c)) as [ctx' res] eqn:SF.
  assert (Hc' : match c with Legacy v => u8 v | _ => True end) by (destruct c; [exact Hc|exact I]).
  destruct (set_foreground_spec ctx (Some c) _ ctx' res Ho Hc' SF) as (_ & _ & _ & _ & [(x & S & -> & F)|(N & -> & _)]).
  2:{ cbn [try]. eexists. split; [reflexivity|]. now apply RTColor. }
  cbn [try]. unfold render_rect.
  assert (As : (match md with Debug => if (0 <? rx r) && (0 <? ry r) then Val tt else Panic
               | Release => Val tt end) = Val tt).
  { destruct md; [|reflexivity]. now replace ((0 <? rx r) && (0 <? ry r)) with true by lia. }
  rewrite As. cbn [bind]. cbv zeta.
  destruct (intersection_on md r _ _ Ur Uw Uh A Hx Hy) as (i & E & I). rewrite E. cbn [bind].
  destruct (rect_eqb i _) eqn:B.
  - eexists. split; [reflexivity|]. assert (O : OnSign (r_width p) (r_height p) r) by now apply I.
    apply (RTOk _ _ _ _ x); auto. unfold Painted, copy_color. cbn [r_width r_height r_pixel].
    splits; auto. intros px py. rewrite F.
    assert (Q : in_raster p px py && (rx (extend_width_height r (mkRect 1 1 (r_width p) (r_height p))) - 1 <=? px)
        && (px <? rx (extend_width_height r (mkRect 1 1 (r_width p) (r_height p))) - 1
              + rwidth (extend_width_height r (mkRect 1 1 (r_width p) (r_height p))))
        && (ry (extend_width_height r (mkRect 1 1 (r_width p) (r_height p))) - 1 <=? py)
        && (py <? ry (extend_width_height r (mkRect 1 1 (r_width p) (r_height p))) - 1
              + rheight (extend_width_height r (mkRect 1 1 (r_width p) (r_height p)))) = true
        <-> Covers (r_width p) (r_height p) r px py).
    { assert (E0 : r_width p = 0 /\ r_height p = 0 /\ rwidth r = 0 /\ rheight r = 0 \/ 1 <= rx r <= r_width p /\ 1 <= ry r <= r_height p
        /\ (rwidth r = 0 \/ rx r + rwidth r - 1 <= r_width p) /\ (rheight r = 0 \/ ry r + rheight r - 1 <= r_height p))
        by (destruct O as [O|(O1 & O2 & ->)]; auto). clear O.
      unfold in_raster, Covers, extend_width_height, sat_sub, u16_rect, u16 in *. cbn [rx ry rwidth rheight].
      destruct (Z.ltb_spec 0 (rwidth r)), (Z.eqb_spec (rwidth r) 0); try lia;
      destruct (Z.ltb_spec 0 (rheight r)), (Z.eqb_spec (rheight r) 0); lia. }
    destruct (_ && _) eqn:Bq in Q |- *.
    + split; [reflexivity|]. intros N. exfalso. apply N. now apply Q.
    + split; [|reflexivity]. intros Cv. apply Q in Cv. discriminate.
  - eexists. split; [reflexivity|]. apply RTOff. intros O. apply I in O. congruence.
Qed.

Lemma RectTag_fun r c ctx p o o' : RectTag r c ctx p o -> RectTag r c ctx p o' ->
  match o, o' with Err e, Err e' => e = e' | Ok _, Ok _ => True | _, _ => False end.
Proof.
  intros H H'. destruct H as [N|N|x q S O P]; inversion H' as [N'|N'|x' q' S' O' P']; subst; auto;
    try contradiction; first [now apply (N x')|now apply (N' x)].
Qed.

(** The loop over a page's values performs exactly these operations. *)
Lemma loop_graphic md d n pos m vs ctx p :
  render_graphics_loop md d ((Val (Ok (VGraphic n pos)), m) :: vs) ctx p =
  let '(x, y, id) := match pos with Some q => q | None => (1, 1, None) end in
  let? q := tag_graphic md d n x y id ctx p in render_graphics_loop md d vs ctx q.
Proof.
  cbn [render_graphics_loop try]. unfold tag_graphic.
  destruct pos as [[[x y] id]|].
  - destruct (get_graphic d n id); reflexivity.
  - destruct (get_graphic d n None); reflexivity.
Qed.

Lemma loop_rect md d r c m vs ctx p :
  render_graphics_loop md d ((Val (Ok (VColorRectangle r c)), m) :: vs) ctx p =
  let? q := tag_rect md r c ctx p in render_graphics_loop md d vs ctx q.
Proof.
  cbn [render_graphics_loop try]. unfold tag_rect.
  destruct (set_foreground ctx (Some c) (VColorRectangle r c)) as [ctx' [?|?]]; reflexivity.
Qed.

(** ** Lines *)

Lemma FirstFont_lookup t n f : font_lookup t n = Some f <-> FirstFont t n f.
Proof.
  unfold font_lookup, FirstFont. rewrite find_spec, Z.eqb_eq. split.
  - intros (E & pre & post & Et & F). split; [auto|]. exists pre, post. split; [auto|].
    intros g I. specialize (F g I). lia.
  - intros (E & pre & post & Et & F). split; [auto|]. exists pre, post. split; [auto|].
    intros g I. specialize (F g I). lia.
Qed.

Lemma FirstFont_fun t n f g : FirstFont t n f -> FirstFont t n g -> f = g.
Proof. rewrite <- !FirstFont_lookup. congruence. Qed.

Lemma Largest_fun P n m : Largest P n -> Largest P m -> n = m.
Proof. intros [H1 H2] [H3 H4]. specialize (H2 m H3). specialize (H4 n H1). lia. Qed.

Lemma count_lines_ok fuel lh ls height n : 0 <= lh -> 0 <= ls -> 1 <= lh + ls -> 0 <= height ->
  0 <= n <= height + 1 -> LinesFit lh ls height n -> (Z.to_nat (height + 2 - n) < fuel)%nat ->
  exists k, count_lines fuel lh ls height n = Val k /\ Largest (LinesFit lh ls height) k.
Proof.
  revert n. induction fuel as [|f IH]; intros n H1 H2 H3 H4 H5 H6 H7; [lia|]. cbn [count_lines].
  destruct (Z.leb_spec (lh * (n + 1) + ls * n) height) as [L|L].
  - assert (n <= height) by nia. apply IH; try lia. right. nia.
  - exists n. split; [reflexivity|]. split; [auto|]. intros m [->|[M1 M2]]; [lia|].
    destruct (Z_le_gt_dec m n); [auto|]. exfalso. nia.
Qed.

Lemma count_lines_hang fuel height n : 0 <= height -> count_lines fuel 0 0 height n = Hang.
Proof.
  revert n. induction fuel as [|f IH]; intros n H; [reflexivity|]. cbn [count_lines].
  replace (0 * (n + 1) + 0 * n <=? height) with true by lia. now apply IH.
Qed.

Lemma rect_lines_cases d r n : table_fields (d_fonts d) -> vms_fields (d_vms_cfg d) -> u16_rect r ->
  (exists k, rect_lines d r n = Val k /\ RectLines d r n k)
  \/ (rect_lines d r n = Hang
      /\ exists f, FirstFont (d_fonts d) n f /\ char_height_pixels (d_vms_cfg d) = 0
           /\ f_height f = 0 /\ f_line_spacing f = 0).
Proof.
  intros Ht (Hc & _) (_ & _ & _ & Hr). unfold rect_lines, char_height.
  destruct (font_lookup (d_fonts d) n) as [f|] eqn:L.
  2:{ left. exists 0. split; [reflexivity|]. apply RL_undefined. now apply font_lookup_none. }
  apply FirstFont_lookup in L.
  assert (Hf : font_fields f).
  { destruct L as (_ & pre & post & E & _). unfold table_fields in Ht. rewrite Forall_forall in Ht. apply Ht.
    rewrite E, in_app_iff. cbn. auto. }
  destruct Hf as (_ & Uh & _ & Ul & _). unfold u8, u16 in *.
  destruct (Z.eqb_spec (char_height_pixels (d_vms_cfg d)) 0) as [E|E].
  - destruct (Z.eq_dec (f_height f + f_line_spacing f) 0) as [Z0|Z0].
    + right. assert (f_height f = 0) as H0 by lia. assert (f_line_spacing f = 0) as H1 by lia.
      rewrite H0, H1, count_lines_hang by lia. split; [reflexivity|]. exists f. splits; auto.
    + left. destruct (count_lines_ok (S (S (S (Z.to_nat (rheight r))))) (f_height f) (f_line_spacing f) (rheight r) 0)
        as (k & Ek & Lk); try lia; [now left|].
      exists k. split; [auto|]. eapply RL_full; eauto.
  - left. destruct (Z.ltb_spec (char_height_pixels (d_vms_cfg d)) (f_height f)) as [T|T].
    + exists 0. split; [reflexivity|]. eapply RL_tall; eauto.
    + destruct (count_lines_ok (S (S (S (Z.to_nat (rheight r))))) (char_height_pixels (d_vms_cfg d)) 0 (rheight r) 0)
        as (k & Ek & Lk); try lia; [now left|].
      exists k. split; [auto|]. eapply RL_matrix; eauto.
Qed.

Lemma RectLines_fun d r n k k' : RectLines d r n k -> RectLines d r n k' -> k = k'.
Proof.
  intros H H'.
  assert (X : forall f, FirstFont (d_fonts d) n f -> ~ (forall g, In g (d_fonts d) -> f_number g <> n)).
  { intros f (E & pre & post & Et & _) N. apply (N f); auto. rewrite Et, in_app_iff. cbn. auto. }
  destruct H as [U|f k F C L|f F C T|f k F C T L];
    inversion H' as [U'|f' k2 F' C' L'|f' F' C' T'|f' k2 F' C' T' L']; subst; auto;
    try (exfalso; eapply X; eauto; fail); try (exfalso; lia);
    pose proof (FirstFont_fun _ _ _ _ F F'); subst f'; try lia; eapply Largest_fun; eauto.
Qed.

Lemma rect_lines_iff d r n k : table_fields (d_fonts d) -> vms_fields (d_vms_cfg d) -> u16_rect r ->
  rect_lines d r n <> Hang -> (rect_lines d r n = Val k <-> RectLines d r n k).
Proof.
  intros Ht Hv Hr NH. destruct (rect_lines_cases d r n Ht Hv Hr) as [(k' & E & L)|(E & _)]; [|contradiction].
  rewrite E. split; [intros H; now inversion H; subst|]. intros H. f_equal. eapply RectLines_fun; eauto.
Qed.

Lemma rect_lines_hang d r n : table_fields (d_fonts d) -> vms_fields (d_vms_cfg d) -> u16_rect r ->
  (rect_lines d r n = Hang
   <-> exists f, FirstFont (d_fonts d) n f /\ char_height_pixels (d_vms_cfg d) = 0
         /\ f_height f = 0 /\ f_line_spacing f = 0).
Proof.
  intros Ht Hv Hr. split.
  - intros E. destruct (rect_lines_cases d r n Ht Hv Hr) as [(k' & E' & L)|(_ & X)]; [congruence|auto].
  - intros (f & F & C & H0 & H1). unfold rect_lines, char_height. rewrite (proj2 (FirstFont_lookup _ _ _) F), C.
    cbn [Z.eqb]. rewrite H0, H1. apply count_lines_hang. destruct Hr as (_ & _ & _ & Hr). unfold u16 in Hr. lia.
Qed.

(** Valid fonts always give a number. *)
Lemma rect_lines_ends d r n : table_fields (d_fonts d) -> vms_fields (d_vms_cfg d) -> u16_rect r ->
  valid_fonts (d_fonts d) -> n <> 0 -> exists k, rect_lines d r n = Val k /\ RectLines d r n k.
Proof.
  intros Ht Hv Hr [V _] Hn. destruct (rect_lines_cases d r n Ht Hv Hr) as [X|(_ & f & F & _ & H0 & _)]; [auto|].
  exfalso. destruct F as (E & pre & post & Et & _). destruct (V f) as (_ & H & _); [|unfold used_font; lia|lia].
  rewrite Et, in_app_iff. cbn. auto.
Qed.

(** With colours the scheme can show, 1-bit graphics use the current colours. *)
Lemma Shows_foreground ctx x : ctx_ok ctx -> color_bytes (fg_current ctx) ->
  Shows ctx (fg_current ctx) x -> foreground_rgb ctx = x.
Proof.
  intros Ho Hc S. unfold foreground_rgb.
  assert (H : match fg_current ctx with Legacy v => u8 v | _ => True end) by (destruct (fg_current ctx); cbn in *; auto).
  apply ctx_rgb_iff in S; auto. now rewrite S.
Qed.
Lemma Shows_background ctx x : ctx_ok ctx -> color_bytes (bg_current ctx) ->
  Shows ctx (bg_current ctx) x -> background_rgb ctx = x.
Proof.
  intros Ho Hc S. unfold background_rgb.
  assert (H : match bg_current ctx with Legacy v => u8 v | _ => True end) by (destruct (bg_current ctx); cbn in *; auto).
  apply ctx_rgb_iff in S; auto. now rewrite S.
Qed.

Lemma inks_current g ctx x y c : ctx_bytes ctx ->
  g_type g = Monochrome1Bit -> (exists f, Shows ctx (fg_current ctx) f) ->
  (exists f, Shows ctx (bg_current ctx) f) ->
  Inks g ctx x y c <->
  0 <= x < g_width g /\ 0 <= y < g_height g
  /\ ((Stored g x y (Legacy 1) /\ g_transparent g <> Some (Legacy 1) /\ c = foreground_rgb ctx)
      \/ (Stored g x y (Legacy 0) /\ g_transparent g <> Some (Legacy 0) /\ c = background_rgb ctx)).
Proof.
  intros (Ho & Hf & Hb) T [f Sf] [k Sb]. unfold Inks. split.
  - intros (Hx & Hy & s & S & N & D). split; [auto|]. split; [auto|].
    destruct D as [z T' Sz|z T' Sz|v z T' Sz|r v b T'];
      try (destruct T'; congruence); try congruence; [left|right]; splits; auto; symmetry;
      [now apply Shows_foreground|now apply Shows_background].
  - intros (Hx & Hy & [(S & N & ->)|(S & N & ->)]); (split; [auto|]; split; [auto|]); eexists; splits; eauto.
    + apply Dp_fg; auto. now rewrite (Shows_foreground ctx f).
    + apply Dp_bg; auto. now rewrite (Shows_background ctx k).
Qed.
