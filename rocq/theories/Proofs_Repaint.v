(** Two runs of the renderer that differ in colours and page times (C72). *)

From Coq Require Import String Lia.
From Verif Require Import Base Str Multi Color Raster Font Graphic Config Sign Render
  Spec_Multi Spec_Color Spec_Font Spec_Tfon Spec_Graphic Spec_Sign Spec_Render Spec_Layout Spec_Draw Spec_Page Spec_Gamut Spec_Repaint
  Proofs_Str Proofs_Split Proofs_Norm Proofs_Parse Proofs_Tag Proofs_Iter Proofs_Machine Proofs_Reach Proofs_Pages Proofs_Color Proofs_Graphic
  Proofs_Build Proofs_Page Proofs_Sign Proofs_Safe Proofs_Gamut Proofs_Extract Proofs_Alike.
Open Scope list_scope.

(** ** Spans *)

(** A state without colours and times. *)
Definition bald (r : RenderState) : RenderState := set_times (set_ctx r (mkCtx Monochrome1Bit (0, 0, 0) (Legacy 0) (0, 0, 0) (Legacy 0))) 0 0.
Definition bald_span (s : Span) : Span :=
  match s with SpText r t => SpText (bald r) t | SpHex r t => SpHex (bald r) t end.

Lemma bald_state s : span_state (bald_span s) = bald (span_state s).
Proof. now destruct s. Qed.
Lemma bald_str s : span_str (bald_span s) = span_str s.
Proof. now destruct s. Qed.

Lemma bald_width md s fonts : span_width md (bald_span s) fonts = span_width md s fonts.
Proof. now destruct s. Qed.
Lemma bald_between s p fonts : char_spacing_between (bald_span s) (bald_span p) fonts = char_spacing_between s p fonts.
Proof. destruct s, p; reflexivity. Qed.

Lemma bald_filter (f : RenderState -> RenderState -> bool) r l : (forall a b, f (bald a) (bald b) = f a b) ->
  filter (fun s => f (bald r) (span_state s)) (map bald_span l) = map bald_span (filter (fun s => f r (span_state s)) l).
Proof.
  intros H. induction l as [|s l IH]; [reflexivity|]. cbn [map filter]. rewrite bald_state, H, IH. now destruct (f r (span_state s)).
Qed.

Lemma bald_horiz_loop md fonts rs l : forall prev b a,
  offset_horiz_loop md fonts (bald rs) (map bald_span l) (option_map bald_span prev) b a = offset_horiz_loop md fonts rs l prev b a.
Proof.
  induction l as [|s l IH]; intros prev b a; cbn [map offset_horiz_loop]; [reflexivity|].
  rewrite bald_width, bald_state. change (rs_span (bald (span_state s))) with (rs_span (span_state s)).
  change (rs_span (bald rs)) with (rs_span rs).
  replace (match option_map bald_span prev with Some ps => try (Val (char_spacing_between (bald_span s) ps fonts)) _ | None => _ end)
    with (match prev with
          | Some ps => try (Val (char_spacing_between s ps fonts)) (fun w =>
             if rs_span (span_state s) <=? rs_span rs then
               let! b := chk16 md (b + w) in Val (Ok (b, a))
             else
               let! a := chk16 md (a + w) in Val (Ok (b, a)))
          | None => Val (Ok (b, a)) end)
    by (destruct prev; cbn [option_map]; [now rewrite bald_between|reflexivity]).
  apply try_cong. intros [b1 a1]. apply try_cong. intros w.
  destruct (_ <? _); apply bind_cong; intros x _; apply (IH (Some s)).
Qed.

Lemma bald_horiz md d l s : offset_horiz md d (map bald_span l) (bald_span s) = offset_horiz md d l s.
Proof.
  unfold offset_horiz. cbv zeta. rewrite bald_state, (bald_filter matches_span) by reflexivity.
  now rewrite (bald_horiz_loop md (d_fonts d) (span_state s) _ None).
Qed.

Lemma bald_x md d l s : span_x md d (map bald_span l) (bald_span s) = span_x md d l s.
Proof.
  unfold span_x, span_x_left, span_x_center, span_x_right. now rewrite bald_horiz, bald_state.
Qed.

Lemma bald_collect fonts l : forall acc, collect_lines fonts (map bald_span l) acc = collect_lines fonts l acc.
Proof.
  induction l as [|s l IH]; intros acc; cbn [map collect_lines]; [reflexivity|].
  assert (span_height (bald_span s) fonts = span_height s fonts) as -> by now destruct s.
  assert (span_font_spacing (bald_span s) fonts = span_font_spacing s fonts) as -> by now destruct s.
  assert (span_line_spacing (bald_span s) = span_line_spacing s) as -> by now destruct s.
  rewrite bald_state. change (rs_line (bald (span_state s))) with (rs_line (span_state s)).
  destruct (span_height s fonts); auto. destruct (span_font_spacing s fonts); auto. cbv zeta. destruct (_ <=? _); apply IH.
Qed.

Lemma bald_vert md d l s : offset_vert md d (map bald_span l) (bald_span s) = offset_vert md d l s.
Proof.
  unfold offset_vert. cbv zeta. rewrite bald_state, (bald_filter matches_line) by reflexivity. now rewrite bald_collect.
Qed.

Lemma bald_y md d l s : span_y md d (map bald_span l) (bald_span s) = span_y md d l s.
Proof.
  assert (E : baseline md d (map bald_span l) (bald_span s) = baseline md d l s)
    by (unfold baseline, baseline_top, baseline_middle, baseline_bottom; now rewrite bald_vert, bald_state).
  unfold span_y. rewrite E. now destruct s.
Qed.

(** ** Rasters *)

Section Runs.
Variable R : rgb -> rgb -> Prop.
Variable T : Z -> Z -> Prop.
Variables d d' : Dms.
Hypothesis HF : SameFace d d'.
Hypotheses (HB : Built d) (HB' : Built d').
Hypothesis HD : RepaintedSign R T d d'.

Definition RR (p q : Raster rgb) : Prop :=
  r_width p = r_width q /\ r_height p = r_height q /\ forall x y, R (r_pixel p x y) (r_pixel q x y).

Definition Res {A B E F} (Q : A -> B -> Prop) (P : E -> F -> Prop) (a : result A E) (b : result B F) : Prop :=
  match a, b with Ok x, Ok y => Q x y | Err e, Err f => P e f | _, _ => False end.

Lemma MRel_try {A B A' B'} (Q : A -> B -> Prop) (S : A' -> B' -> Prop) x y k l :
  MRel (Res Q RepaintedError) x y -> (forall a b, Q a b -> MRel (Res S RepaintedError) (k a) (l b)) ->
  MRel (Res S RepaintedError) (try x k) (try y l).
Proof. destruct x as [[a|e]| |], y as [[b|f]| |]; cbn [MRel try Res]; intros; try contradiction; auto. Qed.

Lemma try_same {A A' B'} (S : A' -> B' -> Prop) (x : M (result A SyntaxError)) k l :
  (forall a, MRel (Res S RepaintedError) (k a) (l a)) -> MRel (Res S RepaintedError) (try x k) (try x l).
Proof. intros H. destruct x as [[a|e]| |]; cbn [MRel try Res]; auto. constructor. Qed.

Lemma bind_same {A A' B'} (S : A' -> B' -> Prop) (x : M A) k l :
  (forall a, MRel S (k a) (l a)) -> MRel S (bind x k) (bind x l).
Proof. intros H. destruct x; cbn [MRel bind]; auto. Qed.

Lemma set_rr p q x y c c' : RR p q -> R c c' -> MRel RR (set_pixel p x y c) (set_pixel q x y c').
Proof.
  intros (W & H & P) Hc. unfold set_pixel, in_raster. rewrite W, H. destruct (_ && _); [|exact I].
  cbn. unfold RR. cbn. splits; auto. intros a b. destruct (_ && _); auto.
Qed.

Lemma bits_rr md x y w h c c' b is : R c c' -> forall p q xx yy, RR p q ->
  MRel (fun u v => RR (fst (fst u)) (fst (fst v)) /\ snd (fst u) = snd (fst v) /\ snd u = snd v)
    (render_bits md p x y w h c b is xx yy) (render_bits md q x y w h c' b is xx yy).
Proof.
  intros Hc. induction is as [|i is IH]; intros p q xx yy H; cbn [render_bits]; [cbn; auto|].
  apply (MRel_bind RR).
  - destruct (negb _); [|exact H]. apply bind_same. intros px. apply bind_same. intros py. now apply set_rr.
  - intros p1 q1 H1. cbv zeta. destruct (_ <=? _); [|now apply IH]. apply bind_same. intros yy1. destruct (_ <=? _); [cbn; auto|now apply IH].
Qed.

Lemma bytes_rr md x y w h c c' bs : R c c' -> forall p q xx yy, RR p q ->
  MRel RR (render_bytes md p x y w h c bs xx yy) (render_bytes md q x y w h c' bs xx yy).
Proof.
  intros Hc. induction bs as [|b bs IH]; intros p q xx yy H; cbn [render_bytes]; [exact H|].
  eapply MRel_bind; [apply bits_rr; eauto|]. intros [[p1 x1] y1] [[q1 x2] y2] (H1 & E1 & E2). cbn [fst snd] in *. subst. now apply IH.
Qed.

Lemma text_rr md f text x y cs c c' : R c c' -> forall p q xx, RR p q ->
  MRel (Res RR eq) (render_text_loop md f p text x y cs c xx) (render_text_loop md f q text x y cs c' xx).
Proof.
  intros Hc. induction text as [|ch text IH]; intros p q xx H; cbn [render_text_loop]; [exact H|].
  destruct (character f ch) as [k|]; [|reflexivity].
  apply bind_same. intros x1. apply bind_same. intros px. eapply MRel_bind; [apply bytes_rr; eauto|]. intros p1 q1 H1.
  apply bind_same. intros x2. now apply IH.
Qed.

Lemma map_err_rr {E} (g : E -> SyntaxError) x y : MRel (Res RR eq) x y -> MRel (Res RR RepaintedError) (map_err g x) (map_err g y).
Proof.
  intros H. unfold map_err. eapply MRel_bind; [exact H|]. intros [a|e] [b|f] K; cbn in *; try contradiction; auto. subst. constructor.
Qed.

Lemma rect_rr md p q r c c' v v' : R c c' -> RR p q -> MRel (Res RR RepaintedError) (render_rect md p r c v) (render_rect md q r c' v').
Proof.
  intros Hc (W & H & P). unfold render_rect. rewrite W, H. apply bind_same. intros _. cbv zeta. apply bind_same. intros i.
  destruct (rect_eqb _ _); [|constructor]. cbn. unfold RR. cbn. splits; auto. intros x y.
  assert (in_raster p x y = in_raster q x y) as -> by (unfold in_raster; now rewrite W, H).
  destruct (_ && _); auto.
Qed.

(** ** Colours *)

Definition oR (a b : option rgb) : Prop :=
  match a, b with Some x, Some y => R x y | None, None => True | _, _ => False end.
Definition CR (c c' : Color) : Prop := oR (ctx_rgb (sign_colors d) c) (ctx_rgb (sign_colors d') c').
Definition cR (a b : option Color) : Prop :=
  match a, b with Some c, Some c' => CR c c' | None, None => True | _, _ => False end.

Definition KR (k k' : ColorCtx) : Prop :=
  exists fg bg fg' bg', k = colors d fg bg /\ k' = colors d' fg' bg' /\ CR fg fg' /\ CR bg bg'
    /\ color_bytes fg /\ color_bytes bg /\ color_bytes fg' /\ color_bytes bg'.

Lemma ctx_any e fg bg c : ctx_rgb (colors e fg bg) c = ctx_rgb (sign_colors e) c.
Proof. reflexivity. Qed.

Lemma same_scheme : cfg_color_scheme (d_multi_cfg d) = cfg_color_scheme (d_multi_cfg d').
Proof. apply HF. Qed.

Lemma default_cr x x' : R x x' -> CR (color_of_rgb x) (color_of_rgb x').
Proof.
  intros H. unfold CR, ctx_rgb, sign_colors, colors. cbn. rewrite same_scheme. destruct x as [[r g] b], x' as [[r' g'] b']. cbn.
  destruct (cfg_color_scheme _); cbn; auto.
Qed.

Lemma fg_kr k k' : KR k k' -> R (foreground_rgb k) (foreground_rgb k').
Proof.
  intros (fg & bg & fg' & bg' & -> & -> & H1 & _). unfold foreground_rgb. rewrite !ctx_any. cbn.
  unfold CR, oR in H1. destruct (ctx_rgb _ fg), (ctx_rgb _ fg'); try contradiction; auto. apply HD.
Qed.
Lemma bg_kr k k' : KR k k' -> R (background_rgb k) (background_rgb k').
Proof.
  intros (fg & bg & fg' & bg' & -> & -> & _ & H1 & _). unfold background_rgb. rewrite !ctx_any. cbn.
  unfold CR, oR in H1. destruct (ctx_rgb _ bg), (ctx_rgb _ bg'); try contradiction; auto. apply HD.
Qed.

Definition okc (o : option Color) : Prop := match o with Some c => color_bytes c | None => True end.

Lemma def_bytes e : Built e -> color_bytes (default_fg e) /\ color_bytes (default_bg e).
Proof. intros H. destruct (defaults_ok e H). split; now apply color_of_rgb_bytes. Qed.

Lemma set_fg_kr k k' c c' v v' : KR k k' -> cR c c' -> okc c -> okc c' ->
  KR (fst (set_foreground k c v)) (fst (set_foreground k' c' v'))
  /\ Res (fun _ _ => True) RepaintedError (snd (set_foreground k c v)) (snd (set_foreground k' c' v')).
Proof.
  intros HK HC O O'. pose proof HK as (fg & bg & fg' & bg' & -> & -> & H1 & H2 & B1 & B2 & B3 & B4). unfold set_foreground.
  destruct c as [c|], c' as [c'|]; try contradiction.
  - rewrite !ctx_any. cbn in HC. pose proof HC as HC'. unfold CR, oR in HC. destruct (ctx_rgb _ c), (ctx_rgb _ c'); try contradiction; cbn [fst snd].
    + split; [|exact I]. exists c, bg, c', bg'. cbn in *. splits; auto.
    + split; [exact HK|constructor].
  - cbn [fst snd]. split; [|exact I]. destruct (def_bytes d HB), (def_bytes d' HB').
    exists (default_fg d), bg, (default_fg d'), bg'. splits; auto. apply default_cr. apply HD.
Qed.
Lemma set_bg_kr k k' c c' v v' : KR k k' -> cR c c' -> okc c -> okc c' ->
  KR (fst (set_background k c v)) (fst (set_background k' c' v'))
  /\ Res (fun _ _ => True) RepaintedError (snd (set_background k c v)) (snd (set_background k' c' v')).
Proof.
  intros HK HC O O'. pose proof HK as (fg & bg & fg' & bg' & -> & -> & H1 & H2 & B1 & B2 & B3 & B4). unfold set_background.
  destruct c as [c|], c' as [c'|]; try contradiction.
  - rewrite !ctx_any. cbn in HC. pose proof HC as HC'. unfold CR, oR in HC. destruct (ctx_rgb _ c), (ctx_rgb _ c'); try contradiction; cbn [fst snd].
    + split; [|exact I]. exists fg, c, fg', c'. cbn in *. splits; auto.
    + split; [exact HK|constructor].
  - cbn [fst snd]. split; [|exact I]. destruct (def_bytes d HB), (def_bytes d' HB').
    exists fg, (default_bg d), fg', (default_bg d'). splits; auto. apply default_cr. apply HD.
Qed.

(** ** Graphics *)

Section Messages.
Variable ms : str.
Hypothesis HG : RepaintedGraphics R d d' ms.

Lemma kr_bytes k k' : KR k k' -> ctx_bytes k /\ ctx_bytes k'.
Proof. intros (fg & bg & fg' & bg' & -> & -> & _ & _ & B1 & B2 & B3 & B4). split; now apply colors_bytes. Qed.

Lemma own_inks e k n pos g px py x : Built e -> Says ms (VGraphic n pos) -> FirstGraphic (d_graphics e) n g ->
  g_type g <> Monochrome1Bit -> (exists fg bg, k = colors e fg bg) -> ctx_bytes k -> 0 <= px < g_width g -> 0 <= py < g_height g ->
  pixel_fn g px py k = Val (Some x) -> Inks g (sign_colors e) px py x.
Proof.
  intros HE HS HFi HT (fg & bg & ->) HY Hx Hy E. destruct (FirstGraphic_In _ _ _ HFi) as [I En].
  assert (HN : 1 <= n) by (apply says_ok in HS; cbn in HS; lia).
  pose proof HE as (md & b & Hb & HBD). destruct (build_valid md b e Hb HBD) as (_ & _ & GF & GV & _).
  rewrite Forall_forall in GF. pose proof (GF g I) as Hf. destruct (GV g I ltac:(lia)) as (_ & _ & _ & HC & HK).
  destruct (pixel_fn_spec g (colors e fg bg) px py Hf HC HK HY Hx Hy) as (o & E' & HP).
  rewrite E' in E. injection E as ->.
  assert (HI : Inks g (colors e fg bg) px py x) by (apply (PixelIs_Inks g (colors e fg bg) px py (Some x)); auto; apply Hf).
  destruct HI as (_ & _ & c & HSt & HTr & HDi). unfold Inks. splits; try lia. exists c. splits; auto.
  destruct HDi as [y Ty D|y Ty D|v y Ty D|r v b' Ty]; try congruence.
  - apply Dp_8; auto. now apply shows_any in D.
  - now apply Dp_24.
Qed.

Lemma pixel_sim n pos g k k' px py : Says ms (VGraphic n pos) -> FirstGraphic (d_graphics d) n g -> KR k k' ->
  0 <= px < g_width g -> 0 <= py < g_height g -> MRel oR (pixel_fn g px py k) (pixel_fn g px py k').
Proof.
  intros HS HFi HK Hx Hy. destruct (kr_bytes k k' HK) as [Y Y'].
  assert (FI' : FirstGraphic (d_graphics d') n g).
  { assert (E : d_graphics d = d_graphics d') by apply HF. now rewrite <- E. }
  assert (OWN : forall x x', g_type g <> Monochrome1Bit -> pixel_fn g px py k = Val (Some x) -> pixel_fn g px py k' = Val (Some x') -> R x x').
  { intros x x' NT E E'. destruct HK as (fg & bg & fg' & bg' & -> & -> & _). apply (HG n pos g px py x x' HS HFi NT).
    - eapply own_inks; eauto.
    - eapply own_inks; eauto. }
  assert (SCH : forall v, match ctx_rgb k (Legacy v), ctx_rgb k' (Legacy v) with Some _, Some _ | None, None => True | _, _ => False end).
  { intros v. destruct HK as (fg & bg & fg' & bg' & -> & -> & _). unfold ctx_rgb, colors. cbn. rewrite same_scheme.
    destruct (cfg_color_scheme _); cbn.
    - unfold rgb_monochrome_1. destruct (v =? 0); auto. destruct (v =? 1); auto.
    - unfold rgb_monochrome_8. cbn. destruct (background_default_rgb d) as [[? ?] ?], (foreground_default_rgb d) as [[? ?] ?],
        (background_default_rgb d') as [[? ?] ?], (foreground_default_rgb d') as [[? ?] ?]. exact I.
    - destruct (rgb_classic v); auto.
    - destruct (rgb_classic v); auto. }
  unfold pixel_fn in *. destruct (g_type g) eqn:ET.
  - unfold pixel_1. cbv zeta. apply bind_same. intros b. destruct HK as (fg & bg & fg' & bg' & -> & -> & H1 & H2 & _). cbn [MRel].
    rewrite !ctx_any. change (fg_current (colors d fg bg)) with fg. change (bg_current (colors d fg bg)) with bg.
    change (fg_current (colors d' fg' bg')) with fg'. change (bg_current (colors d' fg' bg')) with bg'.
    destruct (negb _); destruct (g_transparent g) as [[[|[]|]|]|]; auto; exact I.
  - revert OWN. unfold pixel_8. cbv zeta. destruct (index _ _) as [v| |]; cbn [bind MRel]; auto. intros OWN.
    specialize (SCH v). destruct (g_transparent g) as [[c|]|]; [destruct (_ =? _); [exact I|]|..];
      (destruct (ctx_rgb k (Legacy v)) as [x|], (ctx_rgb k' (Legacy v)) as [x'|]; try contradiction; [apply OWN; auto; discriminate|exact I]).
  - revert OWN. unfold pixel_8. cbv zeta. destruct (index _ _) as [v| |]; cbn [bind MRel]; auto. intros OWN.
    specialize (SCH v). destruct (g_transparent g) as [[c|]|]; [destruct (_ =? _); [exact I|]|..];
      (destruct (ctx_rgb k (Legacy v)) as [x|], (ctx_rgb k' (Legacy v)) as [x'|]; try contradiction; [apply OWN; auto; discriminate|exact I]).
  - destruct (pixel_24 g px py) as [[x|]| |]; cbn; auto. apply OWN; auto. discriminate.
Qed.

Lemma graphic_rr md n pos g k k' p q x y : Says ms (VGraphic n pos) -> FirstGraphic (d_graphics d) n g -> KR k k' -> RR p q ->
  MRel (Res RR eq) (render_graphic md g p x y k) (render_graphic md g q x y k').
Proof.
  intros HS HFi HK HR. unfold render_graphic. pose proof HR as (W & H & _). rewrite W, H. apply bind_same. intros _. cbv zeta.
  destruct (_ || _); [reflexivity|].
  assert (ROW : forall yy, 0 <= yy < g_height g -> forall xs p q, (forall a, In a xs -> 0 <= a < g_width g) -> RR p q ->
    MRel RR (draw_row g k (fun c => c) (x - 1) (y - 1) p yy xs) (draw_row g k' (fun c => c) (x - 1) (y - 1) q yy xs)).
  { intros yy Hy xs. induction xs as [|a xs IH]; intros p0 q0 HX H0; cbn [draw_row]; [exact H0|].
    apply (MRel_bind RR); [|intros p1 q1 H1; apply IH; [intros b I; apply HX; now right|exact H1]].
    unfold draw_pixel. eapply MRel_bind; [apply (pixel_sim n pos); auto; apply HX; now left|].
    intros [c|] [c'|] Hc; try contradiction; [now apply set_rr|exact H0]. }
  apply (MRel_bind RR); [|intros p1 q1 H1; exact H1].
  assert (HY : forall b, In b (zrange (g_height g)) -> 0 <= b < g_height g) by (intros b; apply in_zrange).
  revert p q HR W H. induction (zrange (g_height g)) as [|b ys IH]; intros p q HR W H; cbn [draw_rows]; [exact HR|].
  apply (MRel_bind RR); [apply ROW; [apply HY; now left|intros a; apply in_zrange|exact HR]|].
  intros p1 q1 H1. apply IH; [intros c I; apply HY; now right|exact H1|apply H1|apply H1].
Qed.

(** ** Values *)

Definition tR (Q : Z -> Z -> Prop) (a b : option Z) : Prop :=
  match a, b with Some x, Some y => Q x y | None, None => True | _, _ => False end.

Definition VR (v w : Value) : Prop :=
  match v, w with
  | VColorForeground c, VColorForeground c' | VColorBackground c, VColorBackground c'
  | VPageBackground c, VPageBackground c' => cR c c' /\ okc c /\ okc c'
  | VColorRectangle r c, VColorRectangle r' c' => r = r' /\ cR (Some c) (Some c') /\ okc (Some c) /\ okc (Some c')
  | VPageTime a b, VPageTime a' b' => tR T a a' /\ tR (OffTimes T) b b'
  | _, _ => ~ paints v /\ v = w
  end.

Definition XR (x y : M (result Value SyntaxError)) : Prop :=
  match x, y with
  | Val (Ok v), Val (Ok w) => VR v w /\ Says ms v
  | Val (Err e), Val (Err f) => e = f
  | Panic, Panic => True
  | _, _ => False
  end.

Lemma VR_cases v w : VR v w -> (v = w /\ ~ paints v) \/ (paints v /\ paints w /\ value_tag v = value_tag w).
Proof.
  intros H. destruct v; try (destruct H as [NP <-]; left; auto; fail);
    destruct w; try (destruct H as [NP _]; exfalso; apply NP; exact I); right; cbn; auto.
Qed.

Lemma XR_cases x y : XR x y ->
  (x = y /\ forall v, x = Val (Ok v) -> ~ paints v /\ Says ms v)
  \/ exists v w, x = Val (Ok v) /\ y = Val (Ok w) /\ paints v /\ paints w /\ value_tag v = value_tag w /\ VR v w /\ Says ms v.
Proof.
  destruct x as [[v|e]| |], y as [[w|f]| |]; cbn; try contradiction; intros H.
  - destruct H as [H HS]. destruct (VR_cases v w H) as [[-> NP]|(P & Q & E)].
    + left. split; auto. intros u [= <-]. auto.
    + right. exists v, w. splits; auto.
  - left. subst. split; auto. discriminate.
  - left. split; auto. discriminate.
Qed.

Notation Rq := (Res (fun _ _ : unit => True) RepaintedError).

Lemma check_rr xs ys : Forall2 XR xs ys -> MRel Rq (check_unsupported d (bare xs)) (check_unsupported d' (bare ys)).
Proof.
  assert (E : supported_multi_tags (d_multi_cfg d) = supported_multi_tags (d_multi_cfg d')) by apply HF.
  induction 1 as [|x y xs ys H HS IH]; cbn [bare map check_unsupported]; [exact I|]. unfold bare in IH. rewrite <- E.
  destruct (XR_cases x y H) as [[<- NP]|(v & w & -> & -> & _ & _ & ET & _)].
  - apply try_same. intros v. destruct (value_tag v); auto. destruct (negb _); [constructor|]. destruct (_ =? _); [exact I|auto].
  - cbn [try]. rewrite ET. destruct (value_tag w); auto. destruct (negb _); [constructor|]. destruct (_ =? _); [exact I|auto].
Qed.

(** ** States *)

Definition SR (r s : RenderState) : Prop :=
  bald r = bald s /\ KR (rs_ctx r) (rs_ctx s) /\ T (rs_on_time r) (rs_on_time s) /\ OffTimes T (rs_off_time r) (rs_off_time s).

Lemma new_sr : SR (rs_new d) (rs_new d').
Proof.
  destruct HF as ((E1 & E2 & E3 & E4) & F1 & F2 & F3 & _). destruct HD as (D1 & D2 & D3 & D4).
  unfold SR. splits; auto.
  - unfold bald, rs_new. cbn. now rewrite E3, E4, F1, F2, F3.
  - destruct (def_bytes d HB), (def_bytes d' HB').
    exists (default_fg d), (default_bg d), (default_fg d'), (default_bg d'). splits; auto; now apply default_cr.
Qed.

Lemma sr_ctx r s k k' : SR r s -> KR k k' -> SR (set_ctx r k) (set_ctx s k').
Proof. intros (H1 & H2 & H3) HK. unfold SR. splits; auto; apply H3. Qed.

Lemma paints_sim v w : paints v -> paints w -> value_tag v = value_tag w -> VR v w ->
  match v, w with
  | VColorForeground c, VColorForeground c' | VColorBackground c, VColorBackground c'
  | VPageBackground c, VPageBackground c' => cR c c' /\ okc c /\ okc c'
  | VColorRectangle r c, VColorRectangle r' c' => r = r' /\ cR (Some c) (Some c') /\ okc (Some c) /\ okc (Some c')
  | VPageTime a b, VPageTime a' b' => tR T a a' /\ tR (OffTimes T) b b'
  | _, _ => False
  end.
Proof.
  intros Pv Pw E H. destruct v; try contradiction; destruct w; try contradiction; try discriminate E;
    try exact H; destruct H as [N _]; exfalso; apply N; exact I.
Qed.

Lemma update_rr xs ys : Forall2 XR xs ys -> forall r s, SR r s ->
  MRel (fun a b => SR (fst a) (fst b) /\ Rq (snd a) (snd b))
    (update_page_loop (rs_new d) (bare xs) r) (update_page_loop (rs_new d') (bare ys) s).
Proof.
  induction 1 as [|x y xs ys H HS IH]; intros r s HR; cbn [bare map update_page_loop]; [cbn; auto|]. unfold bare in IH.
  destruct (XR_cases x y H) as [[<- NP]|(v & w & -> & -> & Pv & Pw & ET & HV & _)].
  - destruct x as [[v|e]| |]; cbn [bind]; [|cbn; split; [auto|constructor]|exact I|exact I].
    destruct (NP v eq_refl) as [N _]. destruct v; try (apply IH; exact HR); try (exfalso; apply N; exact I); cbn; auto.
  - cbn [bind]. pose proof (paints_sim v w Pv Pw ET HV) as HP. clear H HV ET.
    assert (BG : forall c c' v v', cR c c' -> okc c -> okc c' ->
      MRel (fun a b => SR (fst a) (fst b) /\ Rq (snd a) (snd b))
        (let '(ctx, res) := set_background (rs_ctx r) c v in let rs := set_ctx r ctx in
         match res with Ok _ => update_page_loop (rs_new d) (bare xs) rs | Err e => Val (rs, Err e) end)
        (let '(ctx, res) := set_background (rs_ctx s) c' v' in let rs := set_ctx s ctx in
         match res with Ok _ => update_page_loop (rs_new d') (bare ys) rs | Err e => Val (rs, Err e) end)).
    { intros c c' v0 v0' H1 H2 H3. destruct (set_bg_kr (rs_ctx r) (rs_ctx s) c c' v0 v0') as [K1 K2]; auto; [apply HR|].
      destruct (set_background (rs_ctx r) c v0) as [k o], (set_background (rs_ctx s) c' v0') as [k' o']. cbn [fst snd] in *.
      pose proof (sr_ctx r s k k' HR K1). destruct o, o'; try contradiction; [now apply IH|cbn; auto]. }
    destruct v; try contradiction; destruct w; try contradiction; try (apply IH; exact HR); try (apply BG; apply HP).
    apply IH. destruct HP as [HA HO]. destruct HR as (R1 & R2 & R3 & R4). destruct HD as (_ & _ & D3 & D4).
    unfold SR. cbn [rs_ctx set_times rs_on_time rs_off_time]. splits; auto.
    + destruct on, on0; try contradiction; auto.
    + destruct off, off0; try contradiction; auto.
Qed.

Lemma graphics_rr md xs ys : Forall2 XR xs ys -> forall k k' p q, KR k k' -> RR p q ->
  MRel (Res RR RepaintedError) (render_graphics_loop md d (bare xs) k p) (render_graphics_loop md d' (bare ys) k' q).
Proof.
  assert (EG : d_graphics d = d_graphics d') by apply HF.
  induction 1 as [|x y xs ys H HS IH]; intros k k' p q HK HR; cbn [bare map render_graphics_loop]; [exact HR|]. unfold bare in IH.
  destruct (XR_cases x y H) as [[<- NP]|(v & w & -> & -> & Pv & Pw & ET & HV & _)].
  - destruct x as [[v|e]| |]; cbn [try]; [|constructor|exact I|exact I].
    destruct (NP v eq_refl) as [N HY]. destruct v; try (apply IH; assumption); try (exfalso; apply N; exact I); try exact I; try exact HR.
    assert (GG : forall id, get_graphic d n id = get_graphic d' n id) by (intros; unfold get_graphic; now rewrite EG).
    destruct p0 as [((x0 & y0) & gid)|]; rewrite GG.
    + destruct (get_graphic d' n gid) as [g|e] eqn:Eg; cbn [try]; [|constructor].
      assert (HFi : FirstGraphic (d_graphics d) n g) by (rewrite EG; eapply get_graphic_first; eauto).
      eapply (MRel_try RR); [apply map_err_rr; eapply graphic_rr; eauto|]. intros a b Hab. now apply IH.
    + destruct (get_graphic d' n None) as [g|e] eqn:Eg; cbn [try]; [|constructor].
      assert (HFi : FirstGraphic (d_graphics d) n g) by (rewrite EG; eapply get_graphic_first; eauto).
      eapply (MRel_try RR); [apply map_err_rr; eapply graphic_rr; eauto|]. intros a b Hab. now apply IH.
  - cbn [try]. pose proof (paints_sim v w Pv Pw ET HV) as HP. clear H HV ET.
    destruct v; try contradiction; destruct w; try contradiction; try (apply IH; assumption).
    + destruct HP as (H1 & H2 & H3). destruct (set_bg_kr k k' c c0 (VColorBackground c) (VColorBackground c0)) as [K1 K2]; auto.
      destruct (set_background k _ _) as [a o], (set_background k' _ _) as [a' o']. cbn [fst snd] in *.
      destruct o, o'; try contradiction; cbn [try]; auto.
    + destruct HP as (H1 & H2 & H3). destruct (set_fg_kr k k' c c0 (VColorForeground c) (VColorForeground c0)) as [K1 K2]; auto.
      destruct (set_foreground k _ _) as [a o], (set_foreground k' _ _) as [a' o']. cbn [fst snd] in *.
      destruct o, o'; try contradiction; cbn [try]; auto.
    + destruct HP as (<- & H1 & H2 & H3). destruct (set_fg_kr k k' (Some c) (Some c0) (VColorRectangle r c) (VColorRectangle r c0)) as [K1 K2]; auto.
      destruct (set_foreground k _ _) as [a o], (set_foreground k' _ _) as [a' o']. cbn [fst snd] in *.
      destruct o, o'; try contradiction; cbn [try]; auto.
      eapply (MRel_try RR); [apply rect_rr; auto; now apply fg_kr|]. intros u v Huv. now apply IH.
Qed.

(** ** Text *)

Definition SpR (s s' : Span) : Prop := bald_span s = bald_span s' /\ KR (rs_ctx (span_state s)) (rs_ctx (span_state s')).

Lemma face_sizes : d_fonts d = d_fonts d' /\ char_width d = char_width d' /\ char_height d = char_height d'
  /\ r_char_width d = r_char_width d' /\ r_char_height d = r_char_height d'.
Proof.
  destruct HF as ((E1 & E2 & E3 & E4) & _ & _ & _ & _ & _ & E5 & _).
  unfold r_char_width, r_char_height, char_width, char_height. splits; congruence.
Qed.

Lemma spr_x md all all' s s' : map bald_span all = map bald_span all' -> SpR s s' -> span_x md d all s = span_x md d' all' s'.
Proof.
  intros EA [ES _]. rewrite <- (bald_x md d all s), <- (bald_x md d' all' s'), EA, ES.
  destruct face_sizes as (E1 & E2 & E3 & E4 & E5).
  unfold span_x, span_x_left, span_x_center, span_x_right, offset_horiz. now rewrite E1, E4.
Qed.
Lemma spr_y md all all' s s' : map bald_span all = map bald_span all' -> SpR s s' -> span_y md d all s = span_y md d' all' s'.
Proof.
  intros EA [ES _]. rewrite <- (bald_y md d all s), <- (bald_y md d' all' s'), EA, ES.
  destruct face_sizes as (E1 & E2 & E3 & E4 & E5).
  unfold span_y, baseline, baseline_top, baseline_middle, baseline_bottom, offset_vert. now rewrite E1, E3, E5.
Qed.

Lemma spans_rr md all all' : map bald_span all = map bald_span all' -> forall todo todo', Forall2 SpR todo todo' -> forall p q, RR p q ->
  MRel (Res RR RepaintedError) (render_spans_loop md d all todo p) (render_spans_loop md d' all' todo' q).
Proof.
  intros EA. induction 1 as [|s s' l l' H HS IH]; intros p q HR; cbn [render_spans_loop]; [exact HR|].
  rewrite (spr_x md all all' s s' EA H), (spr_y md all all' s s' EA H).
  apply try_same. intros x. apply try_same. intros y.
  destruct H as [ES HK]. destruct face_sizes as (E1 & _). rewrite E1.
  assert (G : rs_get_font (span_state s) (d_fonts d') = rs_get_font (span_state s') (d_fonts d')).
  { change (rs_get_font (bald (span_state s)) (d_fonts d') = rs_get_font (bald (span_state s')) (d_fonts d')).
    now rewrite <- !bald_state, ES. }
  rewrite G. apply try_same. intros f.
  assert (C : char_spacing_font s f = char_spacing_font s' f).
  { unfold char_spacing_font. change (rs_char_spacing (span_state s)) with (rs_char_spacing (bald (span_state s))).
    change (rs_char_spacing (span_state s')) with (rs_char_spacing (bald (span_state s'))). now rewrite <- !bald_state, ES. }
  eapply (MRel_try RR); [|intros a b Hab; now apply IH].
  unfold span_render_text, font_render_text. rewrite C, <- (bald_str s), <- (bald_str s'), ES. apply map_err_rr, text_rr; auto. now apply fg_kr.
Qed.

Lemma just_rr l l' : map bald_span l = map bald_span l' -> check_justification l = check_justification l'.
Proof.
  unfold check_justification. generalize JpOther, JlOther, 0. revert l'. induction l as [|s l IH]; intros [|s' l'] jp jl n E; try discriminate E; [reflexivity|].
  cbn [map] in E. injection E as E1 E2. cbn [check_just_loop].
  assert (bald (span_state s) = bald (span_state s')) as E by (rewrite <- !bald_state; now rewrite E1).
  change (rs_jp (span_state s)) with (rs_jp (bald (span_state s))). change (rs_jl (span_state s)) with (rs_jl (bald (span_state s))).
  change (rs_line (span_state s)) with (rs_line (bald (span_state s))). rewrite E. cbv zeta. destruct (_ || _); auto.
Qed.

Definition ER (a b : AEnd) : Prop :=
  SR (a_rs a) (a_rs b) /\ a_state a = a_state b /\ Forall2 SpR (a_spans a) (a_spans b) /\ Rq (a_res a) (a_res b)
  /\ Forall2 XR (a_rest a) (a_rest b).

Lemma sr_fields r s : SR r s -> exists k k' on on' off off' rect jp jl f fv ls cs ln sn,
  r = mkRS k on off rect jp jl f fv ls cs ln sn /\ s = mkRS k' on' off' rect jp jl f fv ls cs ln sn
  /\ KR k k' /\ T on on' /\ OffTimes T off off'.
Proof.
  intros (H1 & H2 & H3 & H4). destruct r, s. cbn in *. injection H1 as -> -> -> -> -> -> -> -> ->.
  do 15 eexists. splits; [reflexivity..|assumption|assumption|assumption].
Qed.

Lemma sr_intro k k' on on' off off' rect jp jl f fv ls cs ln sn : KR k k' -> T on on' -> OffTimes T off off' ->
  SR (mkRS k on off rect jp jl f fv ls cs ln sn) (mkRS k' on' off' rect jp jl f fv ls cs ln sn).
Proof. intros. unfold SR. cbn. splits; auto. Qed.

Lemma spr_text r s t : SR r s -> SpR (SpText r t) (SpText s t).
Proof. intros (H1 & H2 & _). split; cbn; congruence || exact H2. Qed.
Lemma spr_hex r s t : SR r s -> SpR (SpHex r t) (SpHex s t).
Proof. intros (H1 & H2 & _). split; cbn; congruence || exact H2. Qed.

Lemma f2_snoc {A B} (Q : A -> B -> Prop) l l' a b : Forall2 Q l l' -> Q a b -> Forall2 Q (l ++ [a]) (l' ++ [b]).
Proof. intros H HQ. apply Forall2_app; auto. Qed.

Lemma rtr_rr md po xs ys : Forall2 XR xs ys -> forall r s l l' lb, SR r s -> Forall2 SpR l l' ->
  MRel ER (a_rtr md d (rs_new d) po xs r l lb) (a_rtr md d' (rs_new d') po ys s l' lb).
Proof.
  destruct face_sizes as (E1 & E2 & E3 & E4 & E5).
  assert (EN : rs_font (rs_new d) = rs_font (rs_new d') /\ rs_font_vid (rs_new d) = rs_font_vid (rs_new d') /\ rs_jl (rs_new d) = rs_jl (rs_new d')
    /\ rs_jp (rs_new d) = rs_jp (rs_new d') /\ rs_rect (rs_new d) = rs_rect (rs_new d')).
  { destruct new_sr as [HN _]. splits; [exact (f_equal rs_font HN)|exact (f_equal rs_font_vid HN)|exact (f_equal rs_jl HN)|exact (f_equal rs_jp HN)|exact (f_equal rs_rect HN)]. }
  destruct EN as (N1 & N2 & N3 & N4 & N5).
  induction 1 as [|x y xs ys H HS IH]; intros r s l l' lb HR HL; cbn [a_rtr].
  - cbn. unfold ER. cbn. splits; auto.
  - assert (HE : forall r s st l l' e e', SR r s -> Forall2 SpR l l' -> Rq e e' -> MRel ER (Val (mkA r st xs l e)) (Val (mkA s st ys l' e'))).
    { intros. cbn. unfold ER. cbn. splits; auto. }
    assert (BAD : forall st e, MRel ER (Val (mkA r st xs l (Err e))) (Val (mkA s st ys l' (Err e)))) by (intros; apply HE; auto; constructor).
    destruct (XR_cases x y H) as [[<- NP]|(v & w & -> & -> & Pv & Pw & ET & HV & _)].
    + destruct x as [[v|e]| |]; cbn [bind]; [|apply BAD|exact I|exact I].
      destruct (NP v eq_refl) as [N HY].
      destruct (sr_fields r s HR) as (k & k' & on & on' & off & off' & rect & jp & jl & f0 & fv & ls0 & cs & ln & sn & Er & Es & HK & HT & HO).
      destruct v; try (apply IH; auto; fail); try (exfalso; apply N; exact I); try (apply BAD).
      * rewrite N1, N2. apply IH; auto. subst r s. cbn. now apply sr_intro.
      * destruct (is_charb _); [|apply BAD]. subst r s. cbn [rs_span]. apply bind_same. intros a.
        apply IH; [cbn; now apply sr_intro|]. apply f2_snoc; auto. apply spr_hex. now apply sr_intro.
      * rewrite N3. destruct j as [[]|]; try apply BAD; (apply IH; auto; subst r s; cbn; now apply sr_intro).
      * rewrite N4. destruct j as [[]|]; try apply BAD; subst r s; cbn [rs_jp]; (destruct (negb _); apply IH; auto; cbn; now apply sr_intro).
      * rewrite E3. match goal with |- context [if ?c then Val _ else _] => destruct c end; [apply BAD|].
        subst r s. cbn [rs_line set_line_spacing]. apply bind_same. intros a. apply IH; [cbn; now apply sr_intro|].
        destruct lb; auto. apply f2_snoc; auto. apply spr_text. now apply sr_intro.
      * apply HE; auto. exact I.
      * rewrite E2. destruct (_ && _); [apply BAD|]. apply IH; auto. subst r s. cbn. now apply sr_intro.
      * apply IH; auto. subst r s. cbn. now apply sr_intro.
      * subst r s. cbn [rs_span]. apply bind_same. intros a. apply IH; [cbn; now apply sr_intro|]. apply f2_snoc; auto. apply spr_text. now apply sr_intro.
      * assert (update_text_rectangle md d (rs_new d) r0 = update_text_rectangle md d' (rs_new d') r0) as ->
          by (unfold update_text_rectangle; now rewrite N5, E4, E5).
        apply bind_same. intros [a|]; [|apply BAD]. apply HE; auto; [|exact I]. subst r s. cbn. now apply sr_intro.
    + cbn [bind]. pose proof (paints_sim v w Pv Pw ET HV) as HP. clear H HV ET.
      destruct v; try contradiction; destruct w; try contradiction; try (apply IH; auto; fail).
      destruct HP as (H1 & H2 & H3). destruct (set_fg_kr (rs_ctx r) (rs_ctx s) c c0 (VColorForeground c) (VColorForeground c0)) as [K1 K2]; auto; [apply HR|].
      destruct (set_foreground (rs_ctx r) _ _) as [a o], (set_foreground (rs_ctx s) _ _) as [a' o']. cbn [fst snd] in *.
      pose proof (sr_ctx r s a a' HR K1). destruct o, o'; try contradiction; [now apply IH|apply HE; auto].
Qed.

(** ** Pages *)

Definition AR (a b : AP) : Prop := SR (ap_rs a) (ap_rs b) /\ ap_state a = ap_state b /\ Forall2 XR (ap_rest a) (ap_rest b).
Definition PR {A B} (Q : A -> B -> Prop) (x : AP * result A SyntaxError) (y : AP * result B SyntaxError) : Prop :=
  AR (fst x) (fst y) /\ Res Q RepaintedError (snd x) (snd y).

Lemma off_same r s : SR r s -> (0 <? rs_off_time r) = (0 <? rs_off_time s).
Proof. intros (_ & _ & _ & _ & H). destruct (Z.ltb_spec 0 (rs_off_time r)), (Z.ltb_spec 0 (rs_off_time s)); auto; exfalso; lia. Qed.

Lemma text_rect_rr md p q a b : AR p q -> RR a b -> MRel (PR RR) (a_text_rect md d p a) (a_text_rect md d' q b).
Proof.
  intros (HR & HS & HV) HA. unfold a_text_rect. rewrite (off_same _ _ HR).
  eapply MRel_bind; [apply rtr_rr; eauto|]. intros e f (F1 & F2 & F3 & F4 & F5).
  destruct (a_res e), (a_res f); try contradiction.
  - assert (EB : map bald_span (a_spans e) = map bald_span (a_spans f)) by (clear - F3; induction F3 as [|s s' l l' [H _] _ IH]; cbn; congruence).
    eapply MRel_bind; [unfold render_text_spans; rewrite (just_rr _ _ EB); apply try_same; intros _; apply spans_rr; eauto|].
    intros r r' HX. unfold PR, AR. cbn. auto.
  - cbn. unfold PR, AR. cbn. auto.
Qed.

Lemma page_loop_rr md fuel : forall n p q a b, AR p q -> RR a b ->
  MRel (PR RR) (a_page_loop md d fuel n p a) (a_page_loop md d' fuel n q b).
Proof.
  induction fuel as [|f IH]; intros n p q a b HP HA; cbn [a_page_loop]; [exact I|].
  pose proof HP as (HR & HS & HV). rewrite <- HS.
  destruct (ap_state p) as [[]|[]|]; try (split; [exact HP|exact HA]).
  eapply MRel_bind; [apply graphics_rr; eauto; apply HR|]. intros g g' HX.
  destruct g as [r|e], g' as [r'|e']; try contradiction; [|split; auto].
  eapply MRel_bind; [apply text_rect_rr; eauto|]. intros [p1 r1] [q1 r2] [H1 H2]. cbn [fst snd] in *.
  destruct r1 as [r1|e], r2 as [r2|e']; try contradiction; [|split; auto].
  cbv zeta. destruct (_ <? _); [split; auto; constructor|]. now apply IH.
Qed.

Lemma build_rr r s : SR r s -> RR (build_raster r) (build_raster s).
Proof.
  intros H. destruct (sr_fields r s H) as (k & k' & on & on' & off & off' & rect & jp & jl & f & fv & ls & cs & ln & sn & -> & -> & HK & _).
  unfold RR. cbn. splits; auto. intros _ _. now apply bg_kr.
Qed.

Lemma on_page_rr md p q : AR p q -> MRel (PR (RepaintedPage R T)) (a_on_page md d p) (a_on_page md d' q).
Proof.
  intros HP. pose proof HP as (HR & HS & HV). unfold a_on_page. cbv zeta.
  eapply MRel_bind; [apply check_rr; exact HV|]. intros c c' HC.
  destruct c as [c|e], c' as [c'|e']; try contradiction; [|split; auto].
  eapply MRel_bind; [unfold update_page_state; apply update_rr; [exact HV|]|].
  { pose proof new_sr as HN. destruct (sr_fields _ _ HN) as (k1 & k1' & on1 & on1' & off1 & off1' & rect1 & jp1 & jl1 & f1 & fv1 & ls1 & cs1 & ln1 & sn1 & -> & -> & _).
    destruct (sr_fields _ _ HR) as (k & k' & on & on' & off & off' & rect & jp & jl & f & fv & ls & cs & ln & sn & -> & -> & HK & HT & HO).
    cbn. now apply sr_intro. }
  intros [rs u] [rs' u'] [H1 H2]. cbn [fst snd] in *.
  destruct u as [u|e], u' as [u'|e']; try contradiction.
  - eapply MRel_bind; [apply page_loop_rr; [unfold AR; cbn; auto|now apply build_rr]|].
    intros [p1 r1] [p2 r2] [H3 H4]. cbn [fst snd] in *.
    destruct r1 as [r1|e], r2 as [r2|e']; try contradiction; [|split; auto].
    split; auto. destruct H3 as ((_ & _ & HT & _) & _). unfold RepaintedPage. cbn. destruct H4 as (W & H & P). splits; auto.
  - split; auto. unfold AR. cbn. auto.
Qed.

Lemma take_rr md n : forall p q, AR p q -> RepaintedItems R T (a_take md d n p) (a_take md d' n q).
Proof.
  induction n as [|n IH]; intros p q HP; cbn [a_take]; [constructor|].
  assert (HN : MRel (fun x y => match fst x, fst y with
                   | Some a, Some b => RepaintedItem R T a b | None, None => True | _, _ => False end
                   /\ AR (snd x) (snd y)) (a_next md d p) (a_next md d' q)).
  { pose proof HP as (HR & HS & HV). unfold a_next. rewrite <- HS. destruct (ap_state p) eqn:Es.
    - eapply MRel_bind; [apply on_page_rr; exact HP|]. intros [p1 r1] [q1 r2] [H1 H2]. cbn in *. auto.
    - cbn [MRel fst snd]. split; [|unfold AR; cbn; auto]. unfold RepaintedItem, RepaintedPage. cbn [pg_duration pg_raster].
      destruct (build_rr _ _ HR) as (W & H & P). splits; auto. apply HR.
    - cbn. auto. }
  destruct (a_next md d p) as [[o p']| |], (a_next md d' q) as [[o' q']| |]; cbn in HN; try contradiction; cbn [bind]; auto.
  destruct HN as [HO HP']. destruct o as [x|], o' as [x'|]; try contradiction; [|constructor].
  specialize (IH p' q' HP').
  destruct (a_take md d n p') as [l| |], (a_take md d' n q') as [l'| |]; cbn in *; try contradiction; auto.
Qed.
End Messages.

End Runs.

(** ** Messages *)

Section Final.
Variables (R : rgb -> rgb -> Prop) (T : Z -> Z -> Prop) (d d' : Dms).
Hypotheses (HB : Built d) (HB' : Built d').

Lemma recolored_cr c c' : okc c -> okc c' -> Recolored R d d' c c' -> cR R d d' c c'.
Proof.
  assert (C : forall e c x, Built e -> color_bytes c -> ctx_rgb (sign_colors e) c = Some x <-> Shows (sign_colors e) c x).
  { intros e c0 x HE HC. apply ctx_rgb_iff; [now apply defaults_ok|]. destruct c0; [exact HC|exact I]. }
  intros O O' H0. revert O O'. destruct H0 as [|a b x x' H H' HR|a b H H']; intros O O'; [exact I| |]; cbn [okc] in *; cbn [cR]; unfold CR, oR.
  - apply C in H, H'; auto. now rewrite H, H'.
  - destruct (ctx_rgb (sign_colors d) a) as [x|] eqn:E; [exfalso; apply (H x), C; auto|].
    destruct (ctx_rgb (sign_colors d') b) as [x|] eqn:E'; [exfalso; apply (H' x), C; auto|]. exact I.
Qed.

Lemma repainted_vr ms ms' v w : Says ms v -> Says ms' w -> Repainted R T d d' v w -> VR R T d d' v w.
Proof.
  intros HS HS' H. apply says_ok in HS, HS'.
  assert (O : forall c, opt_ok color_ok c -> okc c) by (intros [c|] H0; [|exact I]; destruct c; exact H0).
  destruct H as [v NP|c c' H|c c' H|c c' H|r c c' H|a b a' b' HA HO]; cbn [value_ok] in *.
  - destruct v; try (split; auto; fail); exfalso; apply NP; exact I.
  - cbn. splits; auto. apply recolored_cr; auto.
  - cbn. splits; auto. apply recolored_cr; auto.
  - cbn. splits; auto. apply recolored_cr; auto.
  - destruct HS as [_ HS], HS' as [_ HS']. assert (okc (Some c)) by (apply O; exact HS). assert (okc (Some c')) by (apply O; exact HS').
    unfold VR. splits; auto. apply recolored_cr; auto.
  - unfold VR. split; [destruct HA|destruct HO]; first [exact I|assumption].
Qed.

Lemma repainted_tokens ms ms' ts ts' : Forall2 (RepaintedToken R T d d') ts ts' ->
  (forall t v, In t ts -> TokenDenotes t (Ok v) -> Says ms v) -> (forall t v, In t ts' -> TokenDenotes t (Ok v) -> Says ms' v) ->
  Forall (fun t => exists rest, Token t rest) ts ->
  Forall2 (XR R T d d' ms) (map try_from ts) (map try_from ts').
Proof.
  induction 1 as [|t t' ts ts' H HS IH]; intros H1 H2 HT; cbn [map]; constructor.
  - destruct H as [t t' v v' HV HV' HR|t HN].
    + rewrite (TokenDenotes_try _ _ HV), (TokenDenotes_try _ _ HV'). cbn. split; [|apply (H1 t); cbn; auto].
      apply (repainted_vr ms ms'); auto; [apply (H1 t)|apply (H2 t')]; cbn; auto.
    + inversion HT as [|? ? (rest & HK) _]; subst.
      destruct (try_from_token t rest HK) as [[_ ->]|[_ (res & -> & HD)]]; [exact I|].
      destruct res as [v|e]; [destruct (HN v HD)|reflexivity].
  - apply IH; [intros t0 v0 I0; apply H1; cbn; auto|intros t0 v0 I0; apply H2; cbn; auto|now inversion HT].
Qed.

Lemma repaint md n ms ms' : SameFace d d' -> RepaintedSign R T d d' -> RepaintedGraphics R d d' ms ->
  RepaintedMessage R T d d' ms ms' ->
  RepaintedItems R T (pages_take md d n (pages_new d ms)) (pages_take md d' n (pages_new d' ms')).
Proof.
  intros HF HD HG (ts & ts' & HT & HT' & HR).
  rewrite (take_start md d n ms _ (Reads_new _ _ HT)), (take_start md d' n ms' _ (Reads_new _ _ HT')).
  apply (take_rr R T d d' HF HB HB' HD ms HG). unfold AR, a_start. cbn [ap_rs ap_state ap_rest]. splits; auto.
  - apply new_sr; auto.
  - apply (repainted_tokens ms ms'); auto; [exists ts, t|exists ts', t|exact (Tokens_Token _ _ HT)]; auto.
Qed.

End Final.

(** ** Special cases *)

Lemma shows_one ctx c x y : Shows ctx c x -> Shows ctx c y -> x = y.
Proof.
  intros H H'. destruct H as [S|S|v b0 b1 b2 f0 f1 f2 S B F|v x S P N|r g b S]; inversion H' as [S'|S'|v' b0' b1' b2' f0' f1' f2' S' B' F'|v' x' S' P' N'|r' g' b' S'];
    subst; auto; try congruence; try (destruct S; congruence); try (destruct S'; congruence).
Qed.

Lemma inks_one g ctx px py x y : Inks g ctx px py x -> Inks g ctx px py y -> x = y.
Proof.
  intros (_ & _ & c & S & _ & D) (_ & _ & c' & S' & _ & D'). rewrite (Stored_fun g px py c' c S' S) in D'. clear S S'.
  destruct D as [x E H|x E H|v x E H|r v b E]; inversion D' as [x' E' H'|x' E' H'|v' x' E' H'|r' v' b' E']; subst;
    try (eapply shows_one; eassumption); try (destruct E; congruence); try (destruct E'; congruence); auto.
Qed.

Lemma same_face_refl d : SameFace d d.
Proof. unfold SameFace. splits; reflexivity. Qed.

Lemma retime md d n ms ms' : Built d -> RepaintedMessage eq AnyTime d d ms ms' ->
  RepaintedItems eq AnyTime (pages_take md d n (pages_new d ms)) (pages_take md d n (pages_new d ms')).
Proof.
  intros HB HM. apply repaint; auto; [apply same_face_refl| |].
  - unfold RepaintedSign, OffTimes, AnyTime. tauto.
  - intros k pos g px py x x' _ _ _ H H'. eapply inks_one; eauto.
Qed.

Lemma reshape md d d' n ms ms' : Built d -> Built d' -> SameFace d d' ->
  (0 < default_page_off_time (d_multi_cfg d) <-> 0 < default_page_off_time (d_multi_cfg d')) ->
  RepaintedMessage AnyColor AnyTime d d' ms ms' ->
  RepaintedItems AnyColor AnyTime (pages_take md d n (pages_new d ms)) (pages_take md d' n (pages_new d' ms')).
Proof.
  intros HB HB' HF HO HM. apply repaint; auto.
  - unfold RepaintedSign, OffTimes, AnyTime, AnyColor. tauto.
  - intros k pos g px py x x' _ _ _ _ _. exact I.
Qed.

Lemma negative md d d' n ms : Built d -> Built d' -> SameFace d d' ->
  foreground_default_rgb d' = background_default_rgb d -> background_default_rgb d' = foreground_default_rgb d ->
  default_page_on_time (d_multi_cfg d') = default_page_on_time (d_multi_cfg d) ->
  default_page_off_time (d_multi_cfg d') = default_page_off_time (d_multi_cfg d) -> Uncolored d ms ->
  RepaintedItems (Swapped d) eq (pages_take md d n (pages_new d ms)) (pages_take md d' n (pages_new d' ms)).
Proof.
  intros HB HB' HF EF EB EN EO HU. apply repaint; auto.
  - unfold RepaintedSign, OffTimes, Swapped. rewrite EF, EB, EN, EO. splits; auto; tauto.
  - intros k pos g px py x x' HS HG HT _ _. destruct (HU _ HS) as [_ H]. now destruct HT; apply (H k pos).
  - destruct (Tokens_exists ms) as (ts & HT). exists ts, ts. splits; auto.
    assert (HI : forall t, In t ts -> In t ts) by auto. revert HI. generalize ts at 1 3 4. intros l.
    pose proof (Tokens_Token _ _ HT) as HK. rewrite Forall_forall in HK.
    induction l as [|t l IH]; intros HI; constructor; [|apply IH; intros u Hu; apply HI; now right].
    specialize (HI t (or_introl eq_refl)). destruct (HK t HI) as (rest & HTk).
    assert (HD : forall v, TokenDenotes t (Ok v) -> Repainted (Swapped d) eq d d' v v).
    { intros v HV. destruct (HU v) as [HC _]; [exists ts, t; auto|].
      assert (HR : forall o : option Z, Retimed eq o o) by (intros [z|]; constructor; auto).
      assert (HR' : forall o : option Z, Retimed (OffTimes eq) o o) by (intros [z|]; constructor; unfold OffTimes; auto; tauto).
      destruct v; try (apply Rp_same; intros []; fail); try (exfalso; eapply HC; constructor; fail);
        try (apply Rp_pt; auto; fail); (destruct c as [c|]; [exfalso; eapply HC; constructor|constructor; apply Rc_default]). }
    destruct (try_from_token t rest HTk) as [[HP _]|[_ (res & _ & HR)]].
    + apply Tp_none. intros v HV. eapply denotes_panic; eauto.
    + destruct res as [v|e]; [eapply Tp_value; eauto|]. apply Tp_none. intros v HV. pose proof (denotes_fun _ _ _ HR HV). discriminate.
Qed.

Lemma repainted_values R T d d' ms ms' vs vs' : Meaning ms (map Ok vs) -> Meaning ms' (map Ok vs') ->
  Forall2 (Repainted R T d d') vs vs' -> RepaintedMessage R T d d' ms ms'.
Proof.
  intros (ts & HT & HD) (ts' & HT' & HD') HF. exists ts, ts'. splits; auto. clear HT HT'.
  revert ts ts' HD HD'. induction HF as [|v v' vs vs' H HF IH]; intros ts ts' HD HD'; cbn [map] in *.
  - inversion HD; inversion HD'; subst. constructor.
  - inversion HD; inversion HD'; subst. constructor; [eapply Tp_value; eauto|now apply IH].
Qed.
