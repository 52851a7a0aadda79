(** Drawing the text of a rectangle. *)

From Coq Require Import String.
From Verif Require Import Base Str Multi Color Raster Font Graphic Config Sign Render
  Spec_Multi Spec_Font Spec_Sign Spec_Render Spec_Layout
  Proofs_Str Proofs_Norm Proofs_Color Proofs_Font Proofs_Glyph Proofs_Table Proofs_Tfon Proofs_Sign
  Proofs_Iter Proofs_Machine Proofs_Pages Proofs_Horiz Proofs_Vert.
From Coq Require Import ZifyBool ZifyNat.
Ltac Zify.zify_post_hook ::= Z.div_mod_to_equations.
Open Scope list_scope.

(** ** C46 *)

Definition calm {A} (m : M (result A SyntaxError)) : Prop := m <> Val (Err STagConflict).

Lemma calm_try {A B} (m : M (result A SyntaxError)) (k : A -> M (result B SyntaxError)) :
  calm m -> (forall a, calm (k a)) -> calm (try m k).
Proof. unfold calm. destruct m as [[a|e]| |]; cbn [try]; intros H K; auto; congruence. Qed.
Lemma calm_bind {A B} (m : M A) (k : A -> M (result B SyntaxError)) : (forall a, calm (k a)) -> calm (bind m k).
Proof. unfold calm. destruct m as [a| |]; cbn [bind]; intros K; auto; congruence. Qed.
Lemma calm_ok {A} (a : A) : calm (Val (Ok a)). Proof. unfold calm. congruence. Qed.
Lemma calm_panic {A} : calm (@Panic (result A SyntaxError)). Proof. unfold calm. congruence. Qed.
Lemma calm_font {A} (m : M (result A FontError)) : calm (map_err from_font_error m).
Proof. unfold calm, map_err. destruct m as [[a|e]| |]; cbn; try congruence. destruct e; discriminate. Qed.
Lemma calm_get_font rs fonts : calm (Val (rs_get_font rs fonts)).
Proof.
  unfold calm, rs_get_font. destruct (font_lookup fonts (rs_font rs)) as [f|]; [|discriminate].
  destruct (rs_font_vid rs) as [v|]; [|discriminate]. destruct (_ =? _); discriminate.
Qed.
Lemma calm_spacing s fonts : calm (Val (char_spacing_fonts s fonts)).
Proof.
  unfold char_spacing_fonts. destruct (rs_char_spacing (span_state s)); [apply calm_ok|].
  pose proof (calm_get_font (span_state s) fonts) as H. unfold calm in *. destruct (rs_get_font _ _); congruence.
Qed.
Lemma calm_between s p fonts : calm (Val (char_spacing_between s p fonts)).
Proof.
  unfold char_spacing_between. destruct (rs_char_spacing (span_state s)); [apply calm_ok|].
  pose proof (calm_spacing p fonts) as H. pose proof (calm_spacing s fonts) as K. unfold calm in *.
  destruct (char_spacing_fonts p fonts); [|congruence]. destruct (char_spacing_fonts s fonts); congruence.
Qed.
Lemma calm_height s fonts : calm (Val (span_height s fonts)).
Proof.
  unfold span_height. pose proof (calm_get_font (span_state s) fonts) as H. unfold calm in *.
  destruct (rs_get_font _ _); congruence.
Qed.
Lemma calm_lead s fonts : calm (Val (span_font_spacing s fonts)).
Proof.
  unfold span_font_spacing. pose proof (calm_get_font (span_state s) fonts) as H. unfold calm in *.
  destruct (rs_get_font _ _); congruence.
Qed.
Lemma calm_collect fonts : forall l ls, calm (Val (collect_lines fonts l ls)).
Proof.
  induction l as [|s r IH]; intros ls; cbn [collect_lines]; [apply calm_ok|].
  pose proof (calm_height s fonts) as H. pose proof (calm_lead s fonts) as K. unfold calm in H, K.
  destruct (span_height s fonts); [|unfold calm; congruence].
  destruct (span_font_spacing s fonts); [|unfold calm; congruence]. destruct (_ <=? _); apply IH.
Qed.

Ltac calmly := repeat match goal with
  | |- forall _, _ => intros ?
  | |- calm (try _ _) => apply calm_try
  | |- calm (bind _ _) => apply calm_bind
  | |- calm (Val (Ok _)) => apply calm_ok
  | |- calm Panic => apply calm_panic
  | |- calm (map_err from_font_error _) => apply calm_font
  | |- calm (Val (rs_get_font _ _)) => apply calm_get_font
  | |- calm (Val (char_spacing_fonts _ _)) => apply calm_spacing
  | |- calm (Val (char_spacing_between _ _ _)) => apply calm_between
  | |- calm (Val (span_height _ _)) => apply calm_height
  | |- calm (Val (collect_lines _ _ _)) => apply calm_collect
  | |- calm (if ?b then _ else _) => destruct b
  | |- calm (Val (if ?b then _ else _)) => destruct b
  | |- calm (match ?x with _ => _ end) => destruct x
  | |- calm (Val (Err STextTooBig)) => discriminate
  | |- _ => solve [auto]
  end.

Lemma calm_horiz md d all s : calm (offset_horiz md d all s).
Proof.
  unfold offset_horiz. calmly. generalize 0 at 2. generalize 0. generalize (@None Span).
  induction (filter _ all) as [|t l IH]; intros; cbn [offset_horiz_loop]; [apply calm_ok|].
  apply calm_try; [calmly|]. intros []. apply calm_try; [unfold span_width; calmly|]. calmly.
Qed.

Lemma calm_x md d all s : calm (span_x md d all s).
Proof. unfold span_x, span_x_left, span_x_center, span_x_right. calmly. all: apply calm_horiz. Qed.

Lemma calm_vert md d all s : calm (offset_vert md d all s).
Proof. unfold offset_vert. calmly. Qed.

Lemma calm_y md d all s : calm (span_y md d all s).
Proof. unfold span_y, baseline, baseline_top, baseline_middle, baseline_bottom. calmly. all: apply calm_vert. Qed.

Lemma calm_spans md d all : forall todo r, calm (render_spans_loop md d all todo r).
Proof.
  induction todo as [|s todo IH]; intros r; cbn [render_spans_loop]; [apply calm_ok|].
  apply calm_try; [apply calm_x|]. intros x. apply calm_try; [apply calm_y|]. intros y.
  unfold span_render_text. calmly.
Qed.

Lemma tag_conflict md d spans r :
  render_text_spans md d spans r = Val (Err STagConflict) <-> OutOfOrder spans.
Proof.
  unfold render_text_spans. destruct (check_justification_cases spans) as [[E H]|[E H]]; rewrite E; cbn [try].
  - split; [intros X; exfalso; revert X; apply calm_spans|contradiction].
  - tauto.
Qed.

(** ** Drawing one span *)

Section Draw.
Variable d : Dms.
Hypothesis HF : table_fields (d_fonts d).
Hypothesis HV : valid_fonts (d_fonts d).
Hypothesis HC : vms_fields (d_vms_cfg d).
Local Notation fonts := (d_fonts d).

Lemma used_sound s f : SoundFont d (rs_font (span_state s)) -> FontOf fonts s f -> sound_font f.
Proof.
  intros N H. pose proof (FontOf_In _ _ _ H) as I. destruct H as ((E & _) & _).
  destruct (Z.eq_dec (f_number f) 0) as [Z|Z].
  - destruct N as [N|N]; [congruence|auto].
  - apply valid_sound, (proj1 HV f I). exact Z.
Qed.

Lemma place_x_range cw left w b a x wd j : 0 <= cw -> 0 <= left -> place_x j cw left w (b + a) b x ->
  0 <= b -> 0 <= wd <= a -> b + a <= w -> 0 <= x /\ x + wd <= left + w.
Proof.
  intros Hc Hl P Hb Ha L. destruct j; cbn [place_x] in P; try contradiction; subst x; try lia.
  pose proof (cell_range cw (left + (w - (b + a)) / 2 + b) ltac:(lia)). lia.
Qed.

Lemma span_x_ok all s x : Forall span_fields all -> In s all -> rect_fits (s_rect s) ->
  span_x Debug d all s = Val (Ok x) ->
  exists w, SpanWidth fonts s w /\ 0 <= x /\ x + w <= rx (s_rect s) - 1 + rwidth (s_rect s)
    /\ (KeepsCells d s -> rx (s_rect s) - 1 <= x) /\ w <= rwidth (s_rect s).
Proof.
  intros HS I HR H. destruct HC as (_ & Uc & _). unfold u8 in Uc.
  destruct (span_x_horiz _ _ _ _ H) as (q & Eq & Hq & J).
  destruct q as [[b a]|e]; [|exfalso; pose proof (proj2 (Hq e) eq_refl) as X; discriminate X].
  destruct (horiz_ok d HF all s b a HS I Eq) as (_ & Hb & Ha & L & _ & w & W & Lw).
  destruct (span_x_calc d all s b a ltac:(lia) J HR Eq Hb Ha L) as (x' & Ex & P).
  rewrite Ex in H. injection H as ->. exists w. split; auto. destruct HR as (F1 & F2 & F3 & F4 & F5 & F6).
  assert (LL : 0 <= rx (s_rect s) - 1) by lia.
  pose proof (place_x_range _ _ _ _ _ _ w _ (proj1 Uc) LL P Hb Lw L) as [X1 X2].
  splits; auto; [|lia]. intros (K & _).
  apply (place_x_box (char_width_pixels (d_vms_cfg d)) (rx (s_rect s) - 1) (rwidth (s_rect s)) b a x w (s_jl s)); auto; lia.
Qed.

Lemma place_y_range ch top h a b y j : 0 <= ch -> 0 <= top -> place_y j ch top h (a + b) a y ->
  0 <= a -> 0 <= b -> a + b <= h -> y <= top + h.
Proof.
  intros Hc Hl P Ha Hb L. destruct j; cbn [place_y] in P; try contradiction; subst y; try lia.
  pose proof (cell_range ch (top + (h - (a + b)) / 2 + a) ltac:(lia)). lia.
Qed.

Lemma span_y_ok all s y : Forall span_fields all -> In s all -> rect_fits (s_rect s) ->
  span_y Debug d all s = Val (Ok y) ->
  exists h, HeightOf fonts s h /\ 0 <= y /\ y + h <= ry (s_rect s) - 1 + rheight (s_rect s)
    /\ (KeepsCells d s -> ry (s_rect s) - 1 <= y) /\ h <= rheight (s_rect s).
Proof.
  intros HS I HR H. destruct HC as (Uc & _). unfold u8 in Uc.
  unfold span_y in H. apply try_ok in H. destruct H as (base & Eb & H).
  apply try_ok in H. destruct H as (h & Eh & H). injection Eh as Eh. apply span_height_iff in Eh.
  apply bind_val in H. destruct H as (y' & Ey & H). injection H as <-. apply chk16_val in Ey. destruct Ey as [-> Ly].
  destruct (baseline_vert _ _ _ _ Eb) as (q & Eq & Hq & J).
  destruct q as [[a b]|e]; [|exfalso; pose proof (proj2 (Hq e) eq_refl) as X; discriminate X].
  destruct (vert_ok d HF all s a b HS I Eq) as (ts & Ec & OK & Ea & Et & Ha & Hb & L & _ & h' & Hh' & Lh).
  rewrite (HeightOf_fun _ _ _ _ Hh' Eh) in Lh.
  destruct (baseline_calc d all s a b ltac:(lia) J HR Eq Ha Hb L) as (y & Ey & PY). rewrite Ey in Eb. injection Eb as <-.
  exists h. split; auto. pose proof HR as (F1 & F2 & F3 & F4 & F5 & F6).
  assert (LL : 0 <= ry (s_rect s) - 1) by lia.
  pose proof (place_y_range _ _ _ _ _ _ _ (proj1 Uc) LL PY Ha Hb L).
  splits; try lia. intros (_ & K).
  assert (B : s_jp s = JpMiddle -> on_boundary (char_height_pixels (d_vms_cfg d)) (ry (s_rect s) - 1)
                /\ on_boundary (char_height_pixels (d_vms_cfg d)) h).
  { intros E. destruct (K E) as [K1 K2]. auto. }
  pose proof (place_y_box (char_height_pixels (d_vms_cfg d)) (ry (s_rect s) - 1) (rheight (s_rect s)) a b y h (s_jp s) ltac:(lia) PY Hb Lh L B). lia.
Qed.

(** Drawing a span changes the pixels its text draws, or panics when they are not
    on the page. *)
Lemma draw_span all s x y p : Forall span_fields all -> In s all -> SpanOn p s -> raster_small p ->
  span_x Debug d all s = Val (Ok x) -> span_y Debug d all s = Val (Ok y) ->
  exists f cs, SetWith fonts s f cs /\ rs_get_font (span_state s) fonts = Ok f
    /\ ((exists q, span_render_text Debug s p f x y = Val (Ok q)
           /\ Painted p q (InkText (spacing_in s f) (f_height f) cs x y) (foreground_rgb (rs_ctx (span_state s)))
           /\ forall px py, InkText (spacing_in s f) (f_height f) cs x y px py -> on_raster p px py)
        \/ (span_render_text Debug s p f x y = Panic /\ span_render_text Release s p f x y = Panic
           /\ exists px py, InkText (spacing_in s f) (f_height f) cs x y px py /\ ~ on_raster p px py))
    /\ (SoundFont d (rs_font (span_state s)) ->
        forall px py, InkText (spacing_in s f) (f_height f) cs x y px py ->
          on_raster p px py /\ (KeepsCells d s -> InRect (s_rect s) px py)).
Proof.
  intros HS I (HR & HO) Hsm Hx Hy.
  destruct (span_x_ok all s x HS I HR Hx) as (w & (f & cs & HSet & Ew) & X0 & X2 & X1 & X3).
  destruct (span_y_ok all s y HS I HR Hy) as (h & (g & Hg & Eh) & Y0 & Y2 & Y1 & Y3).
  pose proof HSet as (Hf & t & Ht & Hsp). pose proof (FontOf_fun _ _ _ _ Hf Hg) as <-.
  assert (Fs : span_fields s) by (rewrite Forall_forall in HS; auto).
  pose proof (FontOf_fields _ _ _ HF Hf) as Hff. pose proof (spacing_u8 s f Fs Hff) as Us. unfold u8 in Us.
  pose proof Fs as (_ & _ & _ & _ & t' & Ht' & Hz).
  assert (t' = t) as -> by (apply ShowsText_str in Ht, Ht'; congruence).
  assert (W : Forall (fun c => 0 <= c) (map c_width cs)).
  { apply (widths_nonneg f t); auto. apply Hff. }
  destruct HR as (F1 & F2 & F3 & F4 & F5 & F6).
  assert (Lw : 0 <= line_width (spacing_in s f) (map c_width cs)).
  { rewrite <- line_width_fold by (auto; lia). apply acc_mono; auto; lia. }
  assert (ER : forall md, span_render_text md s p f x y
    = map_err from_font_error (font_render_text md f p t x y (spacing_in s f) (foreground_rgb (rs_ctx (span_state s))))).
  { intros md. unfold span_render_text. rewrite (ShowsText_str s t Ht). reflexivity. }
  assert (Hh : 0 <= h) by (rewrite <- ?Eh, ?Eh; destruct Hff as (_ & Uh & _); unfold u8 in Uh; lia).
  exists f, cs. splits; auto.
  - now apply get_font_iff.
  - rewrite ER.
    destruct (render_text_exact Debug f p t x y (spacing_in s f) (foreground_rgb (rs_ctx (span_state s))) cs)
      as [(q & Eq & PQ & ON)|(Eq & N)]; auto; try lia.
    + left. exists q. splits; auto. rewrite Eq. reflexivity.
    + right. rewrite ER, Eq. splits; auto.
      destruct (render_text_exact Release f p t x y (spacing_in s f) (foreground_rgb (rs_ctx (span_state s))) cs)
        as [(q & Eq' & _ & ON)|(Eq' & _)]; auto; try lia.
      * exfalso. destruct N as (px & py & I1 & I2). auto.
      * rewrite Eq'. reflexivity.
  - intros HN px py L. apply (ink_lit f t cs) in L; auto; [|now apply (used_sound s)].
    apply LitText_box in L; auto; [|lia]. split.
    + assert (0 < rwidth (s_rect s) /\ 0 < rheight (s_rect s) \/ rwidth (s_rect s) = 0 \/ rheight (s_rect s) = 0) as [Z|Z] by lia.
      * destruct (HO (rx (s_rect s) - 1 + rwidth (s_rect s) - 1) (ry (s_rect s) - 1 + rheight (s_rect s) - 1)).
        -- unfold InRect. lia.
        -- unfold on_raster. lia.
      * exfalso. lia.
    + intros HK. specialize (X1 HK). specialize (Y1 HK). unfold InRect. lia.
Qed.

Lemma ink_known all s x y f cs px py : Forall span_fields all -> In s all -> rect_fits (s_rect s) ->
  span_x Debug d all s = Val (Ok x) -> SetWith fonts s f cs ->
  InkText (spacing_in s f) (f_height f) cs x y px py \/ ~ InkText (spacing_in s f) (f_height f) cs x y px py.
Proof.
  intros HS I HR Hx HSet.
  destruct (span_x_ok all s x HS I HR Hx) as (w & HW & X0 & X2 & X1 & X3).
  assert (w = line_width (spacing_in s f) (map c_width cs)) as -> by (apply (SpanWidth_fun fonts s); auto; now exists f, cs).
  destruct HSet as (Hf & t & Ht & Hsp).
  assert (Fs : span_fields s) by (rewrite Forall_forall in HS; auto).
  pose proof (FontOf_fields _ _ _ HF Hf) as Hff. pose proof (spacing_u8 s f Fs Hff) as Us. unfold u8 in Us.
  assert (W : Forall (fun c => 0 <= c) (map c_width cs)).
  { apply (widths_nonneg f t); auto. apply Hff. }
  assert (Lw : 0 <= line_width (spacing_in s f) (map c_width cs)).
  { rewrite <- line_width_fold by (auto; lia). apply acc_mono; auto; lia. }
  destruct HR as (F1 & F2 & F3 & F4 & F5 & F6).
  apply (ink_dec f _ _ _ t); auto; lia.
Qed.

(** Text in a sound font is always on the page. *)
Lemma draw_sound all s x y p : Forall span_fields all -> In s all -> SpanOn p s -> raster_small p ->
  SoundFont d (rs_font (span_state s)) ->
  span_x Debug d all s = Val (Ok x) -> span_y Debug d all s = Val (Ok y) ->
  exists f cs q, SetWith fonts s f cs /\ rs_get_font (span_state s) fonts = Ok f
    /\ span_render_text Debug s p f x y = Val (Ok q)
    /\ Painted p q (InkText (spacing_in s f) (f_height f) cs x y) (foreground_rgb (rs_ctx (span_state s))).
Proof.
  intros HS I HO Hsm HN Hx Hy.
  destruct (draw_span all s x y p HS I HO Hsm Hx Hy) as (f & cs & H1 & H2 & [(q & H3 & H4 & _)|(_ & _ & px & py & L & N)] & H5).
  - exists f, cs, q. auto.
  - exfalso. apply N. now apply H5.
Qed.

Lemma SpanOn_size p q s : r_width q = r_width p -> r_height q = r_height p -> SpanOn (P:=rgb) p s -> SpanOn (P:=rgb) q s.
Proof.
  intros E1 E2 (H1 & H3). split; [auto|]. intros x y H. apply H3 in H. unfold on_raster in *. lia.
Qed.

(** The steps of drawing. *)
Lemma draw_cons all s r p q : Forall span_fields all -> In s all -> SpanOn p s -> raster_small p ->
  render_spans_loop Debug d all (s :: r) p = Val (Ok q) ->
  exists x y f cs m, span_x Debug d all s = Val (Ok x) /\ span_y Debug d all s = Val (Ok y)
    /\ SetWith fonts s f cs
    /\ Painted p m (InkText (spacing_in s f) (f_height f) cs x y) (foreground_rgb (rs_ctx (span_state s)))
    /\ (KeepsCells d s -> SoundFont d (rs_font (span_state s)) ->
        forall px py, InkText (spacing_in s f) (f_height f) cs x y px py -> InRect (s_rect s) px py)
    /\ render_spans_loop Debug d all r m = Val (Ok q).
Proof.
  intros HS I HO Hsm H. cbn [render_spans_loop] in H.
  apply try_ok in H. destruct H as (x & Ex & H). apply try_ok in H. destruct H as (y & Ey & H).
  destruct (draw_span all s x y p HS I HO Hsm Ex Ey) as (f & cs & H1 & H2 & [(m & H3 & H4 & _)|(H3 & _ & _)] & H5);
    rewrite H2 in H; cbn [try] in H; rewrite H3 in H; cbn [try] in H; [|discriminate H].
  exists x, y, f, cs, m. splits; auto. intros K N px py L. now apply H5.
Qed.

Lemma spans_frame all : Forall span_fields all -> forall todo p q, incl todo all ->
  (forall s, In s todo -> SpanOn p s /\ SoundFont d (rs_font (span_state s)) /\ KeepsCells d s) -> raster_small p ->
  render_spans_loop Debug d all todo p = Val (Ok q) ->
  r_width q = r_width p /\ r_height q = r_height p
  /\ forall x y, (forall s, In s todo -> ~ InRect (s_rect s) x y) -> r_pixel q x y = r_pixel p x y.
Proof.
  intros HS. induction todo as [|s r IH]; intros p q HI HO Hsm H.
  - cbn in H. injection H as <-. auto.
  - destruct (HO s (or_introl eq_refl)) as (HOs & HNs & HKs).
    destruct (draw_cons all s r p q HS (HI s (or_introl eq_refl)) HOs Hsm H)
      as (x & y & f & cs & m & _ & _ & _ & (P1 & P2 & P3) & IN & H').
    destruct (IH m q) as (Q1 & Q2 & Q3); auto.
    + intros t It. apply HI. now right.
    + intros t It. destruct (HO t (or_intror It)) as (A & B). split; auto. now apply (SpanOn_size p).
    + unfold raster_small in *. lia.
    + splits; try congruence. intros px py N. rewrite Q3 by (intros t It; apply N; now right).
      apply P3. intros L. apply (N s (or_introl eq_refl)). now apply IN.
Qed.

Lemma placed_x a s b x : Forall span_fields (a ++ s :: b) -> Numbered (a ++ s :: b) -> rect_fits (s_rect s) ->
  span_x Debug d (a ++ s :: b) s = Val (Ok x) -> PlacedX d (a ++ s :: b) s x.
Proof.
  intros HS HN HR H. destruct HC as (_ & Uc & _). unfold u8 in Uc.
  destruct (span_x_horiz _ _ _ _ H) as (q & Eq & Hq & J).
  destruct q as [[u v]|e]; [|exfalso; pose proof (proj2 (Hq e) eq_refl) as X; discriminate X].
  destruct (horiz_ok d HF _ s u v HS (in_elt _ _ _) Eq) as (R & Hb & Ha & L & _).
  destruct (horiz_before d HF a s b HS HN u v Eq) as (pre & post & E & B).
  destruct (span_x_calc d _ s u v ltac:(lia) J HR Eq Hb Ha L) as (x' & Ex & P).
  rewrite Ex in H. injection H as ->.
  exists pre, post, u, (u + v). rewrite <- E. splits; auto. now apply run_of_picked.
Qed.

Lemma spans_drawn all : Forall span_fields all -> Numbered all -> Stacked all ->
  forall todo p q, incl todo all -> (forall s, In s todo -> SpanOn p s) -> raster_small p ->
  render_spans_loop Debug d all todo p = Val (Ok q) -> Drawn d all todo p q.
Proof.
  intros HS HN HK. induction todo as [|s r IH]; intros p q HI HO Hsm H.
  - cbn in H. injection H as <-. constructor.
  - pose proof (HO s (or_introl eq_refl)) as HOs. pose proof (HI s (or_introl eq_refl)) as Is.
    destruct (draw_cons all s r p q HS Is HOs Hsm H) as (x & y & f & cs & m & Ex & Ey & HW & HP & _ & H').
    apply (Dr_cons d all s r p m q f cs x y); auto.
    + destruct (in_split _ _ Is) as (u & v & ->). apply placed_x; auto. apply HOs.
    + apply placed_y; auto; [apply HC|apply HOs].
    + destruct HP as (P1 & P2 & _). apply IH; auto.
      * intros t It. apply HI. now right.
      * intros t It. apply (SpanOn_size p); auto. apply HO. now right.
      * unfold raster_small in *. lia.
Qed.

(** ** When drawing succeeds *)

Lemma sub_AllSet all l : AllSet fonts all -> incl l all -> AllSet fonts l.
Proof. intros H I s J. auto. Qed.

Lemma x_total all s : Forall span_fields all -> In s all -> rect_fits (s_rect s) -> AllSet fonts all ->
  Placeable s -> SumsFit d all ->
  (TooWide d all s /\ span_x Debug d all s = Val (Err STextTooBig))
  \/ (~ TooWide d all s /\ exists x, span_x Debug d all s = Val (Ok x)).
Proof.
  intros HS I HR HA (J & _) HF'. destruct HC as (_ & Uc & _). unfold u8 in Uc.
  assert (HA' : AllSet fonts (run_of all s)).
  { apply (sub_AllSet all); auto. intros t It. apply filter_In in It. apply It. }
  destruct (AllSet_chain fonts (run_of all s) None HA' ltac:(discriminate)) as (v & C).
  apply RunWidth_run in C; auto.
  destruct (HF' s I) as (L & _). specialize (L _ _ (proj2 (run_of_picked all s _) eq_refl) C).
  destruct (horiz_eval d HF all s v HS I C L) as (b & a & E & <-).
  assert (W : TooWide d all s <-> rwidth (s_rect s) < b + a).
  { split.
    - intros (run & w & P & R & G). rewrite (Picked_fun _ _ _ _ P (proj2 (run_of_picked all s _) eq_refl)) in R.
      apply RunWidth_run in R, C; auto. rewrite <- (Chain_fun fonts _ _ _ _ R C). auto.
    - intros G. exists (run_of all s), (b + a). splits; auto. now apply run_of_picked. }
  destruct (Z.leb_spec (b + a) (rwidth (s_rect s))) as [G|G].
  - right. split; [rewrite W; lia|].
    destruct (horiz_ok d HF all s b a HS I E) as (_ & Hb & Ha & _).
    destruct (span_x_calc d all s b a ltac:(lia) J HR E Hb Ha G) as (x & Ex & _). eauto.
  - left. split; [apply W; lia|]. destruct HR as (F1 & F2 & F3 & F4 & F5 & F6).
    unfold span_x. fold (s_jl s). unfold s_rect in *.
    destruct J as [J|[J|J]]; rewrite J; unfold span_x_left, span_x_center, span_x_right;
      rewrite chk16_in by lia; cbn [bind]; rewrite E; reflexivity.
Qed.

Lemma y_total all s : Forall span_fields all -> Stacked all -> In s all -> rect_fits (s_rect s) -> AllSet fonts all ->
  Placeable s -> KeepsCells d s -> SumsFit d all ->
  (TooTall d all s /\ span_y Debug d all s = Val (Err STextTooBig))
  \/ (~ TooTall d all s /\ exists y, span_y Debug d all s = Val (Ok y)).
Proof.
  intros HS HK I HR HA (_ & J) (_ & HC') HF'. destruct HC as (Uc & _). unfold u8 in Uc.
  destruct (collect_total fonts (block_of all s) []) as (ts & Ec).
  { intros t It. apply filter_In in It. destruct (HA t (proj1 It)) as (f & cs & Hf & _). eauto. }
  destruct (collected_lines d HF all s ts HS HK I Ec) as (ls & BL & R & OK & LN).
  pose proof (StackHeight_iff d ls ts R OK) as SH.
  destruct (HF' s I) as (_ & L). specialize (L _ _ BL (proj2 (SH _) eq_refl)).
  destruct (vert_eval d HF all s ts HS I Ec L) as (a & b & E).
  set (v := stackf (char_height d =? 0) None ts) in *.
  assert (W : TooTall d all s <-> rheight (s_rect s) < v).
  { split.
    - intros (ls' & w & P & S' & G). rewrite (BlockLines_fun _ _ _ _ I P BL) in S'.
      apply SH in S'. subst w. auto.
    - intros G. exists ls, v. splits; auto. now apply SH. }
  destruct (Z.leb_spec v (rheight (s_rect s))) as [G|G].
  - right. split; [rewrite W; lia|].
    destruct (vert_ok d HF all s a b HS I E) as (ts' & _ & _ & _ & _ & Ha & Hb & Lb & _ & h & Hh & Lh).
    destruct (baseline_calc d all s a b ltac:(lia) J HR E Ha Hb Lb) as (y & Ey & PY).
    unfold span_y. rewrite Ey. cbn [try]. rewrite (proj2 (span_height_iff fonts s h) Hh). cbn [try].
    assert (B : s_jp s = JpMiddle -> on_boundary (char_height_pixels (d_vms_cfg d)) (ry (s_rect s) - 1)
                /\ on_boundary (char_height_pixels (d_vms_cfg d)) h).
    { intros X. destruct (HC' X) as [K1 K2]. auto. }
    pose proof (place_y_box (char_height_pixels (d_vms_cfg d)) (ry (s_rect s) - 1) (rheight (s_rect s)) a b y h (s_jp s) ltac:(lia) PY Hb Lh Lb B).
    destruct HR as (F1 & F2 & F3 & F4 & F5 & F6).
    rewrite chk16_in by lia. cbn [bind]. eauto.
  - left. split; [apply W; lia|]. destruct HR as (F1 & F2 & F3 & F4 & F5 & F6).
    unfold span_y, baseline. fold (s_jp s). unfold s_rect in *.
    destruct J as [J|[J|J]]; rewrite J; unfold baseline_top, baseline_middle, baseline_bottom;
      rewrite chk16_in by lia; cbn [bind]; rewrite E; reflexivity.
Qed.

Lemma spans_total all : Forall span_fields all -> Stacked all -> AllSet fonts all -> SumsFit d all ->
  forall todo p, incl todo all ->
  (forall s, In s todo -> SpanOn p s /\ SoundFont d (rs_font (span_state s)) /\ KeepsCells d s /\ Placeable s) ->
  raster_small p ->
  ((exists q, render_spans_loop Debug d all todo p = Val (Ok q))
    /\ forall s, In s todo -> ~ (TooWide d all s \/ TooTall d all s))
  \/ (render_spans_loop Debug d all todo p = Val (Err STextTooBig)
    /\ exists s, In s todo /\ (TooWide d all s \/ TooTall d all s)).
Proof.
  intros HS HK HA HF'. induction todo as [|s r IH]; intros p HI HO Hsm.
  - left. split; [exists p; reflexivity|intros s []].
  - destruct (HO s (or_introl eq_refl)) as (HOs & HNs & HKs & HJs). pose proof (HI s (or_introl eq_refl)) as Is.
    cbn [render_spans_loop].
    destruct (x_total all s HS Is (proj1 HOs) HA HJs HF') as [[W E]|[W (x & Ex)]].
    { right. rewrite E. split; [reflexivity|]. exists s. split; [now left|now left]. }
    rewrite Ex. cbn [try].
    destruct (y_total all s HS HK Is (proj1 HOs) HA HJs HKs HF') as [[T E]|[T (y & Ey)]].
    { right. rewrite E. split; [reflexivity|]. exists s. split; [now left|now right]. }
    rewrite Ey. cbn [try].
    destruct (draw_sound all s x y p HS Is HOs Hsm HNs Ex Ey) as (f & cs & m & H1 & H2 & H3 & (P1 & P2 & _)).
    rewrite H2. cbn [try]. rewrite H3. cbn [try].
    destruct (IH m) as [[O N]|[E (t & It & Ht)]].
    + intros t It. apply HI. now right.
    + intros t It. destruct (HO t (or_intror It)) as (A & B & C). split; auto. now apply (SpanOn_size p).
    + unfold raster_small in *. lia.
    + left. split; auto. intros t [<-|It]; [tauto|now apply N].
    + right. split; auto. exists t. split; auto. now right.
Qed.
End Draw.
