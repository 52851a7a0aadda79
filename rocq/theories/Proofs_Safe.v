(** Rendering moderate messages does not panic. *)

From Coq Require Import String.
From Verif Require Import Base Str Multi Color Raster Font Graphic Config Sign Render
  Spec_Multi Spec_Color Spec_Font Spec_Tfon Spec_Graphic Spec_Sign Spec_Render Spec_Layout Spec_Page Spec_Safe
  Proofs_Str Proofs_Norm Proofs_Color Proofs_Font Proofs_Glyph Proofs_Table Proofs_Tfon Proofs_Graphic
  Proofs_Sign Proofs_Build Proofs_Iter Proofs_Machine Proofs_Pages Proofs_Reach Proofs_Render
  Proofs_Horiz Proofs_Vert Proofs_Layout Proofs_Place Proofs_Page Proofs_Cover Proofs_Ends Proofs_Modes.
From Coq Require Import ZifyBool ZifyNat.
Ltac Zify.zify_post_hook ::= Z.div_mod_to_equations.
Open Scope list_scope.

Definition quiet {A} (m : M A) : Prop := exists a, m = Val a.

Lemma quiet_val {A} (a : A) : quiet (Val a).
Proof. now exists a. Qed.
Lemma quiet_bind {A B} (m : M A) (k : A -> M B) : quiet m -> (forall a, m = Val a -> quiet (k a)) -> quiet (bind m k).
Proof. intros (a & ->) H. now apply H. Qed.
Lemma quiet_try {A B E} (m : M (result A E)) (k : A -> M (result B E)) :
  quiet m -> (forall a, m = Val (Ok a) -> quiet (k a)) -> quiet (try m k).
Proof. intros ([a|e] & ->) H; cbn [try]; [now apply H|apply quiet_val]. Qed.
#[export] Hint Resolve quiet_val : core.

Lemma spread_bound cs w : 0 <= cs -> forall ws, Forall (fun c => 0 <= c <= w) ws ->
  0 <= spread cs ws <= Z.of_nat (List.length ws) * w + Z.max 0 (Z.of_nat (List.length ws) - 1) * cs.
Proof.
  intros Hc. induction ws as [|x ws IH]; intros H; [cbn [spread List.length]; lia|]. inversion H as [|? ? Hx H']; subst.
  specialize (IH H'). destruct ws as [|y ws]; [cbn [spread List.length]; lia|].
  change (spread cs (x :: y :: ws)) with (x + cs + spread cs (y :: ws)).
  remember (y :: ws) as t. assert (1 <= Z.of_nat (List.length t)) by (subst; cbn; lia). clear Heqt.
  cbn [List.length]. nia.
Qed.

Lemma drop_zeros_sub ws : (List.length (drop_zeros ws) <= List.length ws)%nat
  /\ forall P, Forall P ws -> Forall P (drop_zeros ws).
Proof.
  induction ws as [|x ws IH]; [cbn; auto|]. destruct IH as [I1 I2].
  destruct x; cbn [drop_zeros]; [|split; auto..].
  split; [cbn; lia|]. intros P H. inversion H; subst. auto.
Qed.

Lemma line_width_bound cs w ws : 0 <= cs -> Forall (fun c => 0 <= c <= w) ws ->
  0 <= line_width cs ws /\ line_width cs ws + cs <= Z.max 1 (Z.of_nat (List.length ws)) * (w + cs) \/ ws = [].
Proof.
  intros Hc H. destruct ws as [|x ws]; [now right|left]. unfold line_width.
  destruct (drop_zeros_sub (x :: ws)) as [L F]. specialize (F _ H).
  assert (0 <= w) by (inversion H; lia).
  pose proof (spread_bound cs w Hc _ F) as B. remember (List.length (drop_zeros (x :: ws))) as n.
  remember (List.length (x :: ws)) as m. assert (1 <= Z.of_nat m) by (subst; cbn; lia).
  assert (Z.of_nat n <= Z.of_nat m) by lia. nia.
Qed.

(** ** Texts *)

Section Text.
Variable d : Dms.
Let fonts := d_fonts d.
Hypothesis HF : table_fields (d_fonts d).
Hypothesis HV : valid_fonts (d_fonts d).
Hypothesis HC : vms_fields (d_vms_cfg d).
Variables w cs h ls : Z.
Hypothesis Hw : 0 <= w.
Hypothesis Hh : 0 <= h.
Hypothesis HL : FontsWithin d w cs h ls.

(** Spacing asked for by tags is limited too. *)
Definition limited (s : Span) : Prop :=
  (forall n, rs_char_spacing (span_state s) = Some n -> n <= 99)
  /\ (forall n, rs_line_spacing (span_state s) = Some n -> n <= 9).

Definition cost (s : Span) : Z := Z.max 1 (Z.of_nat (List.length (span_str s))).
Fixpoint costs (l : list Span) : Z := match l with [] => 0 | s :: r => cost s + costs r end.

Lemma cs_pos : 99 <= cs. Proof. apply HL. Qed.
Lemma ls_pos : 9 <= ls. Proof. apply HL. Qed.

Lemma spacing_limit s f : limited s -> FontOf fonts s f -> spacing_in s f <= cs.
Proof.
  intros (L & _) Hf. pose proof cs_pos. apply FontOf_In in Hf. destruct HL as (_ & _ & K). destruct (K f Hf) as (_ & K1 & _).
  unfold spacing_in. destruct (rs_char_spacing (span_state s)) as [n|]; [specialize (L n eq_refl); lia|auto].
Qed.

Lemma gap_limit p s g : limited p -> limited s -> Gap fonts p s g -> g <= cs.
Proof.
  intros Lp Ls [n E|f k E H1 H2].
  - pose proof cs_pos. apply Ls in E. lia.
  - pose proof (spacing_limit p f Lp H1). pose proof (spacing_limit s k Ls H2). unfold half_up. lia.
Qed.

Lemma width_limit f t c : span_fields f -> limited f -> forall g, FontOf fonts f g -> Spells g t c ->
  line_width (spacing_in f g) (map c_width c) + cs <= Z.max 1 (Z.of_nat (List.length c)) * (w + cs).
Proof.
  intros HS Ls g Hg Hsp. pose proof cs_pos. pose proof (FontOf_fields _ _ _ HF Hg) as Hff.
  pose proof (spacing_u8 f g HS Hff) as U. pose proof (spacing_limit f g Ls Hg) as L. unfold u8 in U.
  assert (W : Forall (fun c => 0 <= c <= w) (map c_width c)).
  { apply Forall_forall. intros x I. apply in_map_iff in I as (ch & <- & I).
    pose proof (Spells_In _ _ _ _ Hsp I) as I'. split.
    - destruct Hff as (_ & _ & _ & _ & Hcf & _). rewrite Forall_forall in Hcf. destruct (Hcf ch I') as (_ & X & _). unfold u8 in X. lia.
    - destruct HL as (_ & _ & K). destruct (K g (FontOf_In _ _ _ Hg)) as (K1 & _). auto. }
  destruct (line_width_bound (spacing_in f g) w (map c_width c) ltac:(lia) W) as [[B1 B2]|B].
  - rewrite map_length in B2. assert (0 <= Z.max 1 (Z.of_nat (List.length c)) - 1) by lia. nia.
  - rewrite B. apply map_eq_nil in B. subst c. unfold line_width. cbn [drop_zeros spread List.length]. lia.
Qed.

Lemma Spells_length f t c : Spells f t c -> List.length c = List.length t.
Proof. induction 1; cbn; auto. Qed.

Lemma FirstMissing_length f t c ch : FirstMissing f t c ch -> (List.length c <= List.length t)%nat.
Proof.
  intros (pre & post & -> & Hsp & _). rewrite (Spells_length _ _ _ Hsp), app_length. cbn. lia.
Qed.

Lemma cost_pos s : 1 <= cost s. Proof. unfold cost. lia. Qed.
Lemma costs_pos l : 0 <= costs l.
Proof. induction l as [|s l IH]; cbn [costs]; [lia|]. pose proof (cost_pos s). lia. Qed.

Lemma span_width_quiet s : span_fields s -> limited s -> cost s * (w + cs) < 65536 ->
  quiet (span_width Debug s fonts)
  /\ forall x, span_width Debug s fonts = Val (Ok x) -> SpanWidth fonts s x /\ 0 <= x /\ x + cs <= cost s * (w + cs).
Proof.
  intros HS Ls Hc. pose proof cs_pos as Hcs. pose proof HS as (_ & _ & _ & _ & t & Ht & _). pose proof (ShowsText_str s t Ht) as Et.
  unfold cost in *. rewrite Et in *. split.
  - unfold span_width. rewrite Et.
    destruct (rs_get_font (span_state s) fonts) as [f|e] eqn:Ef; cbn [try]; [|apply quiet_val].
    apply get_font_iff in Ef. rewrite (spacing_fonts _ _ _ Ef). cbn [try].
    pose proof (FontOf_fields _ _ _ HF Ef) as Hff. pose proof (spacing_u8 s f HS Hff) as U. unfold u8 in U.
    pose proof Hff as (_ & _ & _ & _ & Hcf & _).
    destruct (spells_or_missing f t) as [(c & Hsp)|(c & ch & Hm)].
    + pose proof (width_limit s t c HS Ls f Ef Hsp) as B. rewrite (Spells_length _ _ _ Hsp) in B.
      rewrite (text_width_ok Debug f t (Some (spacing_in s f)) c); auto; cbn [spacing_of]; try lia. apply quiet_val.
    + pose proof Hm as (pre & post & E & Hsp & _). pose proof (width_limit s pre c HS Ls f Ef Hsp) as B.
      pose proof (FirstMissing_length _ _ _ _ Hm) as L.
      assert (Z.max 1 (Z.of_nat (List.length c)) * (w + cs) <= Z.max 1 (Z.of_nat (List.length t)) * (w + cs)) by nia.
      rewrite (text_width_missing Debug f t (Some (spacing_in s f)) c ch); auto; cbn [spacing_of]; try lia. apply quiet_val.
  - intros x E. apply span_width_iff in E; auto. destruct E as [E L]. pose proof (SpanWidth_nonneg _ HF _ _ HS E) as N.
    split; [exact E|]. split; [exact N|]. destruct E as (f & c & (Hf & t' & Ht' & Hsp) & ->).
    assert (t' = t) as -> by (apply ShowsText_str in Ht'; congruence).
    pose proof (width_limit s t c HS Ls f Hf Hsp) as B. rewrite (Spells_length _ _ _ Hsp) in B. exact B.
Qed.

Lemma hloop_quiet rs : forall l p b a, Forall span_fields l -> Forall limited l ->
  prev_ok fonts p -> (forall q, p = Some q -> limited q) ->
  0 <= b -> 0 <= a -> b + a + costs l * (w + cs) < 65536 ->
  quiet (offset_horiz_loop Debug fonts rs l p b a)
  /\ forall b' a', offset_horiz_loop Debug fonts rs l p b a = Val (Ok (b', a')) -> 0 <= b' + a' < 65536.
Proof.
  pose proof cs_pos as Hcs.
  induction l as [|s r IH]; intros p b a HS HLm HP HPl Hb Ha Hc.
  { cbn [offset_horiz_loop costs] in *. split; [apply quiet_val|]. intros b' a' [= <- <-]. lia. }
  inversion HS as [|? ? S1 S2]; subst. inversion HLm as [|? ? L1 L2]; subst. cbn [costs] in Hc.
  pose proof (costs_pos r) as Pr. pose proof (cost_pos s) as Ps.
  assert (Cr : 0 <= costs r * (w + cs)) by nia.
  destruct (span_width_quiet s S1 L1 ltac:(lia)) as (Q & QW).
  assert (GS : (exists e, (match p with
                | Some q => exists e', char_spacing_between s q fonts = Err e' /\ e = e'
                | None => False end)) \/ exists g, gap_to fonts p s g /\ 0 <= g <= cs).
  { destruct p as [q|]; [|right; exists 0; cbn; lia].
    destruct (HP q eq_refl) as (Fq & f & Hf).
    destruct (char_spacing_between s q fonts) as [g|e] eqn:E; [|left; eauto].
    right. exists g. apply (gap_iff fonts HF q s g f HF Fq S1 Hf) in E. split; [exact E|].
    pose proof (gap_limit q s g (HPl q eq_refl) L1 E). pose proof (Gap_u8 fonts HF q s g Fq S1 E) as U. unfold u8 in U. lia. }
  destruct GS as [(e & GE)|(g & HG & Bg)].
  { destruct p as [q|]; [|contradiction]. destruct GE as (e' & GE & _). cbn [offset_horiz_loop]. rewrite GE. cbn [try].
    split; [apply quiet_val|]. intros b' a' [=]. }
  destruct Q as ([x|e] & Q).
  - destruct (QW x Q) as (SW & X1 & X2).
    rewrite (hloop_step fonts HF rs s r p b a g x S1 HP HG SW Hb Ha) by nia.
    assert (HP' : prev_ok fonts (Some s)).
    { intros q [= <-]. split; auto. now apply (SpanWidth_font fonts s x). }
    assert (HPl' : forall q, Some s = Some q -> limited q) by (intros q [= <-]; auto).
    destruct (_ <? _); [|destruct (_ <=? _)]; apply IH; auto; try lia; nia.
  - cbn [offset_horiz_loop]. destruct p as [q|].
    + destruct (HP q eq_refl) as (Fq & f & Hf). cbn [gap_to] in HG.
      rewrite (proj2 (gap_iff fonts HF q s g f HF Fq S1 Hf) HG). cbn [try].
      assert (b + g < 65536 /\ a + g < 65536) as [G1 G2].
      { assert (w + cs <= cost s * (w + cs)) by nia. lia. }
      destruct (_ <=? _); rewrite chk16_in by lia; cbn [bind try]; rewrite Q; cbn [try];
        (split; [apply quiet_val|intros b' a' [=]]).
    + cbn [try]. rewrite Q. cbn [try]. split; [apply quiet_val|intros b' a' [=]].
Qed.

Lemma costs_filter f l : costs (filter f l) <= costs l.
Proof.
  induction l as [|s l IH]; cbn [filter costs]; [lia|]. pose proof (cost_pos s).
  destruct (f s); cbn [costs]; lia.
Qed.

Lemma Forall_filter {A} (P : A -> Prop) f l : Forall P l -> Forall P (filter f l).
Proof. rewrite !Forall_forall. intros H x I. apply filter_In in I. apply H, I. Qed.

Lemma offset_horiz_quiet all s : Forall span_fields all -> Forall limited all -> costs all * (w + cs) < 65536 ->
  quiet (offset_horiz Debug d all s).
Proof.
  intros HS HLm Hc. pose proof cs_pos. unfold offset_horiz. cbv zeta.
  pose proof (costs_filter (fun t => matches_span (span_state s) (span_state t)) all) as Cf.
  destruct (hloop_quiet (span_state s) (filter (fun t => matches_span (span_state s) (span_state t)) all) None 0 0) as [Q B];
    try lia; try (now apply Forall_filter).
  - intros q [=].
  - intros q [=].
  - assert (costs (filter (fun t => matches_span (span_state s) (span_state t)) all) * (w + cs) <= costs all * (w + cs)) by nia. lia.
  - apply quiet_try; auto. intros [b a] E. specialize (B b a E). rewrite chk16_in by lia. cbn [bind]. apply quiet_val.
Qed.

Lemma span_x_quiet all s : Forall span_fields all -> Forall limited all -> costs all * (w + cs) < 65536 ->
  In s all -> rect_fits (s_rect s) -> Placeable s -> quiet (span_x Debug d all s).
Proof.
  intros HS HLm Hc I HR (J & _). destruct HC as (_ & Uc & _). unfold u8 in Uc.
  destruct (offset_horiz_quiet all s HS HLm Hc) as ([[b a]|e] & E).
  - destruct (horiz_ok d HF all s b a HS I E) as (_ & Hb & Ha & G & _).
    destruct (span_x_calc d all s b a ltac:(lia) J HR E Hb Ha G) as (x & Ex & _). rewrite Ex. apply quiet_val.
  - destruct HR as (F1 & F2 & F3 & F4 & F5 & F6). unfold span_x. fold (s_jl s). unfold s_rect in *.
    destruct J as [J|[J|J]]; rewrite J; unfold span_x_left, span_x_center, span_x_right;
      rewrite chk16_in by lia; cbn [bind]; rewrite E; cbn [try]; apply quiet_val.
Qed.

(** ** Lines *)

Definition tl_within (l : TextLine) : Prop :=
  tl_height l <= h /\ tl_font_spacing l <= ls /\ forall n, tl_line_spacing l = Some n -> n <= ls.

Lemma collect_within n : forall l lines out, Forall limited l -> Forall tl_within lines ->
  Z.of_nat (List.length lines) <= n + 1 -> (forall s, In s l -> s_line s <= n) ->
  collect_lines fonts l lines = Ok out -> Forall tl_within out /\ Z.of_nat (List.length out) <= n + 1.
Proof.
  pose proof ls_pos as Hls.
  induction l as [|s l IH]; intros lines out HLm HT HN HB E.
  { cbn in E. injection E as <-. auto. }
  inversion HLm as [|? ? L1 L2]; subst. apply collect_step in E as (hh & fs & Hhh & Hfs & E).
  assert (TW : tl_within (as_line s hh fs)).
  { destruct Hhh as (f & Hf & ->), Hfs as (g & Hg & ->). destruct HL as (_ & _ & K).
    destruct (K f (FontOf_In _ _ _ Hf)) as (_ & _ & K1 & _). destruct (K g (FontOf_In _ _ _ Hg)) as (_ & _ & _ & K2).
    unfold tl_within, as_line. cbn. splits; auto. intros n' En. apply L1 in En. lia. }
  apply IH in E; auto.
  - destruct (_ <=? _) eqn:B.
    + apply Forall_app. split; auto.
    + apply Forall_nth. intros k x Hk. rewrite nth_combine_at in Hk. destruct (nth_error lines k) as [y|] eqn:Ek; [|discriminate].
      assert (Ty : tl_within y) by (rewrite Forall_forall in HT; apply HT; now apply nth_error_In in Ek).
      injection Hk as <-. destruct (_ =? _)%nat; auto.
      destruct Ty as (T1 & T2 & T3), TW as (U1 & U2 & U3). unfold tl_within, combine. cbn in *.
      splits; [lia|lia|]. intros n'. destruct (tl_line_spacing y); intros En; [now apply T3|now apply U3].
  - destruct (_ <=? _) eqn:B.
    + rewrite app_length. cbn [List.length]. specialize (HB s (or_introl eq_refl)). lia.
    + rewrite combine_at_length. auto.
  - intros t It. apply HB. now right.
Qed.

Lemma stackf_within full : forall lines p, Forall tl_within lines -> Forall tl_ok lines -> opt_ok p ->
  (forall l, p = Some l -> tl_within l) ->
  stackf full p lines <= Z.of_nat (List.length lines) * (h + ls).
Proof.
  pose proof ls_pos as Hls.
  induction lines as [|l lines IH]; intros p HT HO HP HPw; cbn [stackf List.length]; [lia|].
  inversion HT as [|? ? T1 T2]; subst. inversion HO as [|? ? O1 O2]; subst.
  assert (lead full p l <= ls).
  { unfold lead. destruct p as [q|]; [|lia]. destruct full; [|lia]. unfold line_spacing.
    destruct T1 as (_ & T1 & T1'). destruct (HPw q eq_refl) as (_ & T3 & _).
    destruct (tl_line_spacing l); auto. unfold avg_up. rewrite avg_half.
    - unfold half_up. lia.
    - destruct O1 as (_ & X & _). destruct (HP q eq_refl) as (_ & Y & _). unfold u8 in *. lia. }
  assert (opt_ok (Some l)) as O' by (intros x [= <-]; auto).
  assert (forall x, Some l = Some x -> tl_within x) as P' by (intros x [= <-]; auto).
  specialize (IH (Some l) T2 O2 O' P'). destruct T1 as (T1 & _). lia.
Qed.

Lemma offset_vert_quiet n all s : Forall span_fields all -> Forall limited all -> In s all ->
  0 <= n -> (forall t, In t all -> s_line t <= n) -> (n + 1) * (h + ls) < 65536 ->
  quiet (offset_vert Debug d all s).
Proof.
  intros HS HLm I Hn HB Hc. pose proof ls_pos as Hls.
  destruct (collect_lines fonts (block_of all s) []) as [ts|e] eqn:E.
  - assert (Lb : Forall limited (block_of all s)) by now apply Forall_filter.
    destruct (collect_within n _ [] ts Lb) as (T1 & T2); auto; [cbn; lia| |].
    { intros t It. apply HB. apply filter_In in It. apply It. }
    assert (OK : Forall tl_ok ts) by (eapply collect_ok; [exact HF|apply block_of_fields; exact HS|constructor|exact E]).
    assert (ON : opt_ok None) by (intros ? [=]).
    pose proof (stackf_within (char_height d =? 0) ts None T1 OK ON ltac:(discriminate)) as SW.
    destruct (vert_eval d HF all s ts HS I E) as (a & b & Ev).
    + assert (Z.of_nat (List.length ts) * (h + ls) <= (n + 1) * (h + ls)) by nia. lia.
    + rewrite Ev. apply quiet_val.
  - unfold offset_vert. fold (block_of all s). cbv zeta. fold fonts. rewrite E. cbn [try]. apply quiet_val.
Qed.

Lemma span_y_quiet n all s : Forall span_fields all -> Forall limited all -> In s all ->
  0 <= n -> (forall t, In t all -> s_line t <= n) -> (n + 1) * (h + ls) < 65536 ->
  rect_fits (s_rect s) -> Placeable s -> KeepsCells d s -> quiet (span_y Debug d all s).
Proof.
  intros HS HLm I Hn HB Hc HR (_ & J) (_ & HC'). destruct HC as (Uc & _). unfold u8 in Uc.
  destruct (offset_vert_quiet n all s HS HLm I Hn HB Hc) as ([[a b]|e] & E).
  - destruct (vert_ok d HF all s a b HS I E) as (ts' & _ & _ & _ & _ & Ha & Hb & Lb & _ & ht & Hht & Lh).
    destruct (baseline_calc d all s a b ltac:(lia) J HR E Ha Hb Lb) as (y & Ey & PY).
    unfold span_y. rewrite Ey. cbn [try]. rewrite (proj2 (span_height_iff _ s ht) Hht). cbn [try].
    assert (B : s_jp s = JpMiddle -> on_boundary (char_height_pixels (d_vms_cfg d)) (ry (s_rect s) - 1)
                /\ on_boundary (char_height_pixels (d_vms_cfg d)) ht).
    { intros X. destruct (HC' X) as [K1 K2]. auto. }
    pose proof (place_y_box (char_height_pixels (d_vms_cfg d)) (ry (s_rect s) - 1) (rheight (s_rect s)) a b y ht (s_jp s) ltac:(lia) PY Hb Lh Lb B).
    destruct HR as (F1 & F2 & F3 & F4 & F5 & F6).
    rewrite chk16_in by lia. cbn [bind]. apply quiet_val.
  - destruct HR as (F1 & F2 & F3 & F4 & F5 & F6).
    unfold span_y, baseline. fold (s_jp s). unfold s_rect in *.
    destruct J as [J|[J|J]]; rewrite J; unfold baseline_top, baseline_middle, baseline_bottom;
      rewrite chk16_in by lia; cbn [bind]; rewrite E; cbn [try]; apply quiet_val.
Qed.

Lemma spans_quiet n all : Forall span_fields all -> Forall limited all -> costs all * (w + cs) < 65536 ->
  0 <= n -> (forall t, In t all -> s_line t <= n) -> (n + 1) * (h + ls) < 65536 ->
  forall todo p, incl todo all -> (forall s, In s todo -> SpanOn p s /\ SoundFont d (rs_font (span_state s)) /\ KeepsCells d s /\ Placeable s) ->
  raster_small p ->
  exists r, render_spans_loop Debug d all todo p = Val r
    /\ forall q, r = Ok q -> r_width q = r_width p /\ r_height q = r_height p.
Proof.
  intros HS HLm Hc Hn HB Hc'. induction todo as [|s r IH]; intros p HI HO Hsm.
  { exists (Ok p). split; [reflexivity|]. intros q [= <-]. auto. }
  destruct (HO s (or_introl eq_refl)) as (HOs & HNs & HKs & HJs). pose proof (HI s (or_introl eq_refl)) as Is.
  cbn [render_spans_loop].
  destruct (span_x_quiet all s HS HLm Hc Is (proj1 HOs) HJs) as ([x|e] & Ex); rewrite Ex; cbn [try].
  2:{ eexists. split; [reflexivity|]. intros q [=]. }
  destruct (span_y_quiet n all s HS HLm Is Hn HB Hc' (proj1 HOs) HJs HKs) as ([y|e] & Ey); rewrite Ey; cbn [try].
  2:{ eexists. split; [reflexivity|]. intros q [=]. }
  destruct (draw_sound d HF HV HC all s x y p HS Is HOs Hsm HNs Ex Ey) as (f & c & m & H1 & H2 & H3 & (P1 & P2 & _)).
  rewrite H2. cbn [try]. rewrite H3. cbn [try].
  destruct (IH m) as (res & E & Z).
  - intros t It. apply HI. now right.
  - intros t It. destruct (HO t (or_intror It)) as (A & B & C). split; auto. now apply (SpanOn_size p).
  - unfold raster_small in *. lia.
  - exists res. split; auto. intros q Eq. destruct (Z q Eq). split; congruence.
Qed.

Lemma text_spans_quiet n all p : Forall span_fields all -> Forall limited all -> costs all * (w + cs) < 65536 ->
  0 <= n -> (forall t, In t all -> s_line t <= n) -> (n + 1) * (h + ls) < 65536 ->
  (forall s, In s all -> SpanOn p s /\ SoundFont d (rs_font (span_state s)) /\ KeepsCells d s /\ Placeable s) -> raster_small p ->
  exists r, render_text_spans Debug d all p = Val r
    /\ forall q, r = Ok q -> r_width q = r_width p /\ r_height q = r_height p.
Proof.
  intros HS HLm Hc Hn HB Hc' HO Hsm. unfold render_text_spans.
  destruct (check_justification all); cbn [try].
  - apply (spans_quiet n); auto. apply incl_refl.
  - eexists. split; [reflexivity|]. intros q [=].
Qed.
End Text.

(** ** The machine *)

(** Settings of the renderer that every tag keeps in order. *)
Definition steady (d : Dms) (rs : RenderState) : Prop :=
  (rs_font rs <> 0 \/ rs_font rs = default_font (d_multi_cfg d))
  /\ (rs_jl rs = JlLeft \/ rs_jl rs = JlCenter \/ rs_jl rs = JlRight)
  /\ (rs_jp rs = JpTop \/ rs_jp rs = JpMiddle \/ rs_jp rs = JpBottom)
  /\ (forall n, rs_char_spacing rs = Some n -> 0 <= n <= 99)
  /\ (forall n, rs_line_spacing rs = Some n -> 0 <= n <= 9)
  /\ ctx_bytes (rs_ctx rs).

Definition boxed (d : Dms) (r : Rectangle) : Prop :=
  rect_in d r /\ on_boundary (char_width_pixels (d_vms_cfg d)) (rx r - 1)
  /\ on_boundary (char_height_pixels (d_vms_cfg d)) (ry r - 1).

Definition ready (d : Dms) (rs : RenderState) : Prop := steady d rs /\ boxed d (rs_rect rs).

Definition span_ready (d : Dms) (s : Span) : Prop :=
  span_fields s /\ limited s /\ boxed d (s_rect s) /\ (rs_font (span_state s) <> 0 \/ rs_font (span_state s) = default_font (d_multi_cfg d)) /\ Placeable s.

(** Values before the next new page, text rectangle or error. *)
Fixpoint ahead (xs : Outcomes) : list Value :=
  match xs with
  | Val (Ok VNewPage) :: _ => []
  | Val (Ok (VTextRectangle _)) :: _ => []
  | Val (Ok v) :: r => v :: ahead r
  | _ => []
  end.

Definition sound (d : Dms) (x : M (result Value SyntaxError)) : Prop :=
  exists r, x = Val r /\ forall v, r = Ok v -> value_ok v /\ Renderable d v.

Lemma fg_ctx_bytes ctx c v ctx' r : ctx_bytes ctx -> Spec_Multi.opt_ok color_ok c -> set_foreground ctx c v = (ctx', r) -> ctx_bytes ctx'.
Proof.
  intros ((O1 & O2) & F & B) Hc. unfold set_foreground. destruct c as [c|].
  - destruct (ctx_rgb ctx c); intros [= <- <-]; unfold ctx_bytes, ctx_ok; cbn; splits; auto.
  - intros [= <- <-]. unfold ctx_bytes, ctx_ok; cbn [fg_default bg_default fg_current bg_current]; splits; auto.
    now apply color_of_rgb_bytes.
Qed.

Lemma bg_ctx_bytes ctx c v ctx' r : ctx_bytes ctx -> Spec_Multi.opt_ok color_ok c -> set_background ctx c v = (ctx', r) -> ctx_bytes ctx'.
Proof.
  intros ((O1 & O2) & F & B) Hc. unfold set_background. destruct c as [c|].
  - destruct (ctx_rgb ctx c); intros [= <- <-]; unfold ctx_bytes, ctx_ok; cbn; splits; auto.
  - intros [= <- <-]. unfold ctx_bytes, ctx_ok; cbn [fg_default bg_default fg_current bg_current]; splits; auto.
    now apply color_of_rgb_bytes.
Qed.

Lemma chk8_in md v : 0 <= v < 256 -> chk8 md v = Val v.
Proof. apply chk_in. Qed.

Section Machine.
Variable d : Dms.
Hypothesis HB : Built d.
Hypothesis HU : Usable d.
Hypothesis HD : PlaceableDefaults d.

Lemma sign_size : u16 (sign_width_pixels (d_vms_cfg d)) /\ u16 (sign_height_pixels (d_vms_cfg d)).
Proof.
  destruct (Built_parts d HB) as (_ & _ & (C1 & C2 & C3 & C4 & _)). auto.
Qed.

Lemma ready_new : ready d (rs_new d).
Proof.
  destruct HD as [D1 D2]. unfold ready, steady, boxed. cbn. splits; auto; try discriminate.
  - change (ctx_bytes (dms_color_ctx d)). destruct (defaults_ok d HB) as [R1 R2]. unfold dms_color_ctx, ctx_bytes, ctx_ok.
    cbn [fg_default bg_default fg_current bg_current]. splits; auto; now apply color_of_rgb_bytes.
  - now apply rect_in_sign.
  - apply boundary_0.
  - apply boundary_0.
Qed.

Lemma graphics_quiet : forall xs, Forall (sound d) xs -> forall ctx p, ctx_bytes ctx -> SignSized d p ->
  exists r, render_graphics_loop Debug d (bare xs) ctx p = Val r /\ forall q, r = Ok q -> SignSized d q.
Proof.
  destruct sign_size as (Hw & Hh). unfold u16 in Hw, Hh.
  induction xs as [|x xs IH]; intros HX ctx p HC HZ.
  { exists (Ok p). split; [reflexivity|]. intros q [= <-]. auto. }
  inversion HX as [|? ? (r & -> & HR) HX']; subst. destruct r as [v|e].
  2:{ exists (Err e). split; [reflexivity|]. intros q [=]. }
  destruct (HR v eq_refl) as (HV & HN). change (bare (Val (Ok v) :: xs)) with ((@Val (result Value SyntaxError) (Ok v), snd (hd (Panic, ms_new []) (bare (Val (Ok v) :: xs)))) :: bare xs).
  destruct v; try contradiction HN;
    try (cbn [render_graphics_loop try]; now apply IH);
    try (cbn [render_graphics_loop try]; exists (Ok p); split; [reflexivity|]; intros q0 [= <-]; exact HZ).
  - cbn [render_graphics_loop try]. destruct (set_background ctx c _) as [ctx' res] eqn:E. apply bg_ctx_bytes in E; auto.
    destruct res; cbn [try]; [now apply IH|]. eexists. split; [reflexivity|]. intros q [=].
  - cbn [render_graphics_loop try]. destruct (set_foreground ctx c _) as [ctx' res] eqn:E. apply fg_ctx_bytes in E; auto.
    destruct res; cbn [try]; [now apply IH|]. eexists. split; [reflexivity|]. intros q [=].
  - rewrite loop_rect. pose proof HZ as (Z1 & Z2). destruct HV as [HR1 HC1].
    destruct (tag_rect_spec Debug r c ctx p) as (o & E & RT); unfold u16; try (rewrite ?Z1, ?Z2; lia).
    + now apply rect_ok_u16.
    + unfold arith_ok. rewrite Z1, Z2. destruct HN as (N1 & N2 & N3). splits; auto.
    + unfold rect_ok in HR1. lia.
    + unfold rect_ok in HR1. lia.
    + apply HC.
    + exact HC1.
    + rewrite E. destruct o as [q1|e]; cbn [try]; [|eexists; split; [reflexivity|]; intros q [=]].
      apply IH; auto. apply (SignSized_same d p); auto. unfold tag_rect in E. destruct (set_foreground _ _ _) as [ctx' res].
      apply try_ok in E as (u & _ & E). now apply render_rect_size in E.
  - rewrite loop_graphic.
    set (o := match p0 with Some q0 => q0 | None => (1, 1, None) end). destruct o as [[x y] id] eqn:EO.
    assert (1 <= x /\ 1 <= y) as [Px Py].
    { subst o. destruct p0 as [[[x0 y0] i0]|]; injection EO as <- <- <-; [|lia]. cbn in HV. lia. }
    pose proof HB as (md & b & Hb & HBD). destruct (build_valid md b d Hb HBD) as (_ & _ & GF & GV & _).
    destruct (tag_graphic_spec Debug d n x y id ctx p GF) as (r & E & GT); auto.
    + intros g I U. destruct (GV g I U) as (_ & _ & _ & C & K). auto.
    + cbn in HV. lia.
    + rewrite E. destruct r as [q1|e]; cbn [try]; [|eexists; split; [reflexivity|]; intros q [=]].
      apply IH; auto. apply (SignSized_same d p); auto. unfold tag_graphic in E. apply try_ok in E as (g & _ & E).
      apply map_err_ok in E. now apply render_graphic_size in E.
Qed.

Lemma check_quiet xs : Forall (sound d) xs -> quiet (check_unsupported d (bare xs)).
Proof.
  induction xs as [|x xs IH]; intros HX; [apply quiet_val|].
  inversion HX as [|? ? (r & -> & HR) HX']; subst. destruct r as [v|e]; cbn [bare map check_unsupported try]; [|apply quiet_val].
  destruct (value_tag v); [|now apply IH]. destruct (negb _); [apply quiet_val|]. destruct (_ =? _); [apply quiet_val|now apply IH].
Qed.

Lemma update_loop_quiet xs : Forall (sound d) xs -> forall rs, steady d rs ->
  exists rs' u, update_page_loop (rs_new d) (bare xs) rs = Val (rs', u) /\ steady d rs'
    /\ rs_rect rs' = rs_rect rs /\ rs_line rs' = rs_line rs /\ rs_span rs' = rs_span rs.
Proof.
  induction xs as [|x xs IH]; intros HX rs HS.
  { exists rs, (Ok tt). cbn. auto. }
  inversion HX as [|? ? (r & -> & HR) HX']; subst. destruct r as [v|e].
  2:{ exists rs, (Err e). cbn. auto. }
  destruct (HR v eq_refl) as (HV & HN). cbn [bare map update_page_loop bind]. fold (bare xs).
  assert (K : forall c, Spec_Multi.opt_ok color_ok c -> exists rs' u,
    (let '(ctx, res) := set_background (rs_ctx rs) c v in
     match res with
     | Ok _ => update_page_loop (rs_new d) (bare xs) (set_ctx rs ctx)
     | Err e => Val (set_ctx rs ctx, Err e)
     end) = Val (rs', u) /\ steady d rs' /\ rs_rect rs' = rs_rect rs /\ rs_line rs' = rs_line rs /\ rs_span rs' = rs_span rs).
  { intros c Hc. destruct (set_background (rs_ctx rs) c v) as [ctx' res] eqn:E.
    destruct HS as (S1 & S2 & S3 & S4 & S5 & S6). apply bg_ctx_bytes in E; auto.
    assert (S' : steady d (set_ctx rs ctx')) by (unfold steady; cbn; splits; auto).
    destruct res as [u|e]; [|exists (set_ctx rs ctx'), (Err e); splits; auto].
    destruct (IH HX' _ S') as (rs' & u' & E' & B1 & B2 & B3 & B4). exists rs', u'. splits; auto. }
  destruct v; try (now apply IH); try (now apply K).
  - exists rs, (Ok tt). splits; auto.
  - match goal with |- exists rs' u, update_page_loop _ _ (set_times rs ?a ?b) = _ /\ _ => 
      assert (S' : steady d (set_times rs a b)) by exact HS;
      destruct (IH HX' _ S') as (rs' & u' & E' & B1 & B2 & B3 & B4); exists rs', u'; splits; auto end.
Qed.

Lemma update_quiet xs rs : Forall (sound d) xs -> steady d rs ->
  exists rs' u, update_page_state (rs_new d) (bare xs) rs = Val (rs', u) /\ ready d rs'
    /\ rs_rect rs' = sign_rect d /\ rs_line rs' = 0 /\ rs_span rs' = 0.
Proof.
  intros HX HS. unfold update_page_state. cbv zeta.
  match goal with |- context [update_page_loop _ _ ?s] => assert (S' : steady d s) end.
  { destruct HS as (S1 & S2 & S3 & S4 & S5 & S6). unfold steady. cbn. splits; auto. discriminate. }
  destruct (update_loop_quiet xs HX _ S') as (rs' & u & E & S & R & L & N). exists rs', u. splits; auto.
  split; auto. rewrite R. cbn. destruct ready_new as (_ & Q). exact Q.
Qed.

Lemma sum_of_nonneg f vs : (forall v, 0 <= f v) -> 0 <= sum_of f vs.
Proof. intros H. induction vs as [|v vs IH]; cbn [sum_of]; [lia|]. specialize (H v). lia. Qed.

Lemma breaks_nonneg vs : 0 <= breaks vs.
Proof. apply sum_of_nonneg. intros []; lia. Qed.
Lemma pieces_nonneg vs : 0 <= pieces vs.
Proof. apply sum_of_nonneg. intros []; lia. Qed.
Lemma characters_nonneg vs : 0 <= characters vs.
Proof. apply sum_of_nonneg. intros []; lia. Qed.

Lemma costs_app a b : costs (a ++ b) = costs a + costs b.
Proof. induction a as [|s a IH]; cbn [costs app]; lia. Qed.

Lemma span_made rs s t : span_state s = rs -> ready d rs -> u8 (rs_line rs) -> u8 (rs_span rs) ->
  ShowsText s t -> ~ In 0 t -> span_ready d s.
Proof.
  intros E ((R1 & R2 & R3 & R4 & R5 & R6) & R7) U1 U2 HT HN. unfold span_ready, span_fields, limited, Placeable.
  unfold s_line, s_number, s_rect, s_jl, s_jp. rewrite E. splits; auto;
    try (intros n En; first [apply R4 in En|apply R5 in En]; unfold u8; lia). exists t. auto.
Qed.

Definition rtr_ends (xs : Outcomes) (spans : list Span) (N : Z) (m : M AEnd) : Prop :=
  exists e, m = Val e /\ ready d (a_rs e) /\ Forall (span_ready d) (a_spans e)
    /\ (forall s, In s (a_spans e) -> s_line s <= N)
    /\ costs (a_spans e) <= costs spans + characters (ahead xs) + breaks (ahead xs)
    /\ (a_state e = PsOn false -> a_res e = Ok tt -> rs_line (a_rs e) = 0 /\ rs_span (a_rs e) = 0).

Lemma ends_here rs st r spans res N xs : ready d rs -> Forall (span_ready d) spans ->
  (forall s, In s spans -> s_line s <= N) -> (st = PsOn false -> res = Ok tt -> rs_line rs = 0 /\ rs_span rs = 0) ->
  rtr_ends xs spans N (Val (mkA rs st r spans res)).
Proof.
  intros R F B C. eexists. split; [reflexivity|]. cbn. splits; auto.
  pose proof (breaks_nonneg (ahead xs)). pose proof (characters_nonneg (ahead xs)). lia.
Qed.

Lemma ends_more xs ys spans spans' N m : rtr_ends ys spans' N m ->
  costs spans' + characters (ahead ys) + breaks (ahead ys) <= costs spans + characters (ahead xs) + breaks (ahead xs) ->
  rtr_ends xs spans N m.
Proof. intros (e & H1 & H2 & H3 & H4 & H5 & H6) L. exists e. splits; auto. lia. Qed.

Lemma steady_ctx rs c : ready d rs -> ctx_bytes c -> ready d (set_ctx rs c).
Proof. intros ((R1 & R2 & R3 & R4 & R5 & R6) & R7) H. unfold ready, steady. cbn. splits; auto. Qed.

Lemma rtr_quiet po : forall xs, Forall (sound d) xs -> forall rs spans lb N,
  ready d rs -> 0 <= rs_line rs -> 0 <= rs_span rs ->
  rs_line rs + breaks (ahead xs) <= N -> N <= 255 -> rs_span rs + pieces (ahead xs) <= 255 ->
  Forall (span_ready d) spans -> (forall s, In s spans -> s_line s <= N) ->
  rtr_ends xs spans N (a_rtr Debug d (rs_new d) po xs rs spans lb).
Proof.
  pose proof ready_new as HN0.
  induction xs as [|x xs IH]; intros HX rs spans lb N HR HL0 HS0 HLN HN HSN HF HB'.
  { cbn [a_rtr]. apply ends_here; auto. destruct po; discriminate. }
  inversion HX as [|? ? (r & -> & HV0) HX']; subst. specialize (IH HX').
  destruct r as [v|e].
  2:{ cbn [a_rtr bind]. apply ends_here; auto. destruct po; discriminate. }
  destruct (HV0 v eq_refl) as (HV & HN').
  assert (Stop : forall e, rtr_ends (Val (Ok v) :: xs) spans N (Val (mkA rs (done po) xs spans (Err e)))).
  { intros e. apply ends_here; auto. destruct po; discriminate. }
  pose proof (breaks_nonneg (ahead xs)) as PB. pose proof (pieces_nonneg (ahead xs)) as PP. pose proof (characters_nonneg (ahead xs)) as PC.
  pose proof HR as ((R1 & R2 & R3 & R4 & R5 & R6) & R7).
  destruct v; try contradiction HN'; cbn [a_rtr bind];
    try (eapply ends_more; [apply IH; auto|]; cbn; lia).
  - (* cf *)
    cbn [ahead] in *. destruct (set_foreground (rs_ctx rs) c _) as [ctx res] eqn:E. apply fg_ctx_bytes in E; auto.
    pose proof (steady_ctx rs ctx HR E) as HR'. destruct res as [u|e].
    + eapply ends_more; [apply IH; auto|cbn [ahead]; cbn; lia].
    + apply ends_here; auto. destruct po; discriminate.
  - (* fo *)
    cbn [ahead] in *. eapply ends_more; [apply IH; auto|cbn; lia]. unfold ready, steady. cbn. splits; auto.
    destruct f as [[n k]|]; [|apply HN0]. cbn in HV. lia.
  - (* hc *)
    change (pieces (ahead (Val (Ok (VHexadecimalCharacter c)) :: xs))) with (1 + pieces (ahead xs)) in HSN.
    change (breaks (ahead (Val (Ok (VHexadecimalCharacter c)) :: xs))) with (breaks (ahead xs)) in HLN.
    destruct (is_charb c); [|apply Stop]. rewrite chk8_in by lia. cbn [bind].
    eapply ends_more; [apply IH; auto; try (cbn; lia)|].
    + apply Forall_app. split; auto. constructor; [|constructor]. destruct (Z.eq_dec c 0) as [->|Nz].
      * apply (span_made rs) with (t := []); auto; try (unfold u8; lia). constructor.
      * apply (span_made rs) with (t := [c]); auto; try (unfold u8; lia). { now constructor. } intros [X|[]]; congruence.
    + intros s I. apply in_app_or in I as [I|[<-|[]]]; auto. change (rs_line rs <= N). lia.
    + rewrite costs_app. cbn [costs].
      assert (cost (SpHex rs (fstr4 c)) = 1).
      { unfold cost. destruct (Z.eq_dec c 0) as [->|Nz].
        - rewrite (ShowsText_str _ []) by constructor. reflexivity.
        - rewrite (ShowsText_str _ [c]) by (now constructor). reflexivity. }
      change (characters (ahead (Val (Ok (VHexadecimalCharacter c)) :: xs))) with (1 + characters (ahead xs)).
      change (breaks (ahead (Val (Ok (VHexadecimalCharacter c)) :: xs))) with (breaks (ahead xs)). lia.
  - (* jl *)
    change (pieces (ahead (Val (Ok (VJustificationLine j)) :: xs))) with (pieces (ahead xs)) in HSN.
    change (breaks (ahead (Val (Ok (VJustificationLine j)) :: xs))) with (breaks (ahead xs)) in HLN.
    destruct j as [[]|]; try apply Stop;
      (eapply ends_more; [apply IH; auto; try (cbn; lia)|cbn; lia]; unfold ready, steady; cbn; splits; auto; apply HD).
  - (* jp *)
    change (pieces (ahead (Val (Ok (VJustificationPage j)) :: xs))) with (pieces (ahead xs)) in HSN.
    change (breaks (ahead (Val (Ok (VJustificationPage j)) :: xs))) with (breaks (ahead xs)) in HLN.
    destruct j as [[]|]; try apply Stop; destruct (negb _);
      (eapply ends_more; [apply IH; auto; try (cbn; lia)|cbn; lia]; unfold ready, steady; cbn; splits; auto; apply HD).
  - (* nl *)
    change (pieces (ahead (Val (Ok (VNewLine x)) :: xs))) with (pieces (ahead xs)) in HSN.
    change (breaks (ahead (Val (Ok (VNewLine x)) :: xs))) with (1 + breaks (ahead xs)) in HLN.
    destruct (match x with Some n => _ | None => false end); [apply Stop|].
    change (rs_line (set_line_spacing rs x)) with (rs_line rs). rewrite chk8_in by lia. cbn [bind].
    eapply ends_more; [apply IH; auto; try (cbn; lia)|].
    + unfold ready, steady. cbn. splits; auto. intros n ->. exact HV.
    + destruct lb; auto. apply Forall_app. split; auto. constructor; [|constructor].
      apply (span_made rs) with (t := []); auto; try (unfold u8; lia). constructor.
    + destruct lb; auto. intros s I. apply in_app_or in I as [I|[<-|[]]]; auto. change (rs_line rs <= N). lia.
    + change (characters (ahead (Val (Ok (VNewLine x)) :: xs))) with (characters (ahead xs)).
      change (breaks (ahead (Val (Ok (VNewLine x)) :: xs))) with (1 + breaks (ahead xs)).
      destruct lb; [|lia]. rewrite costs_app. cbn [costs]. change (cost (SpText rs [])) with 1. lia.
  - (* np *)
    apply ends_here; auto. destruct po; discriminate.
  - (* sc *)
    change (pieces (ahead (Val (Ok (VSpacingCharacter s)) :: xs))) with (pieces (ahead xs)) in HSN.
    change (breaks (ahead (Val (Ok (VSpacingCharacter s)) :: xs))) with (breaks (ahead xs)) in HLN.
    destruct (_ && _); [apply Stop|]. eapply ends_more; [apply IH; auto; try (cbn; lia)|cbn; lia].
    unfold ready, steady. cbn. splits; auto. intros n [= <-]. cbn in HV. lia.
  - (* /sc *)
    change (pieces (ahead (Val (Ok VSpacingCharacterEnd) :: xs))) with (pieces (ahead xs)) in HSN.
    change (breaks (ahead (Val (Ok VSpacingCharacterEnd) :: xs))) with (breaks (ahead xs)) in HLN.
    eapply ends_more; [apply IH; auto; try (cbn; lia)|cbn; lia]. unfold ready, steady. cbn. splits; auto. intros n [=].
  - (* text *)
    change (pieces (ahead (Val (Ok (VText t)) :: xs))) with (1 + pieces (ahead xs)) in HSN.
    change (breaks (ahead (Val (Ok (VText t)) :: xs))) with (breaks (ahead xs)) in HLN.
    rewrite chk8_in by lia. cbn [bind]. destruct HV as [HV1 HV2].
    eapply ends_more; [apply IH; auto; try (cbn; lia)|].
    + apply Forall_app. split; auto. constructor; [|constructor].
      apply (span_made rs) with (t := t); auto; try (unfold u8; lia). { constructor. }
      rewrite Forall_forall in HV2. intros I. specialize (HV2 0 I). unfold text_char in HV2. lia.
    + intros s I. apply in_app_or in I as [I|[<-|[]]]; auto. change (rs_line rs <= N). lia.
    + rewrite costs_app. cbn [costs].
      assert (cost (SpText rs t) = Z.of_nat (List.length t)).
      { unfold cost. cbn [span_str]. destruct t; [contradiction|]. cbn [List.length]. lia. }
      change (characters (ahead (Val (Ok (VText t)) :: xs))) with (Z.of_nat (List.length t) + characters (ahead xs)).
      change (breaks (ahead (Val (Ok (VText t)) :: xs))) with (breaks (ahead xs)). lia.
  - (* tr *)
    destruct (Built_parts d HB) as (_ & _ & (C1 & C2 & C3 & C4 & _)). unfold u8, u16 in *. destruct HN' as (N1 & N2 & N3).
    destruct (text_rect_spec Debug d r) as (o & E & _); unfold u16; try lia.
    { now apply rect_ok_u16. } { cbn in HV. unfold rect_ok in HV. lia. } { cbn in HV. unfold rect_ok in HV. lia. }
    { unfold arith_ok. splits; auto; lia. }
    rewrite E. cbn [bind]. destruct o as [q|].
    + destruct (good_rect d r q HB HV E) as [HG ->]. apply ends_here; auto.
      split; [unfold steady; cbn; splits; auto|]. cbn [rs_rect set_span set_line set_rect]. split; [now apply rect_in_good|].
      destruct HG as (_ & _ & _ & G1 & _ & G2 & _). auto.
    + apply ends_here; auto. discriminate.
Qed.

Hypothesis HCells : FontsInCells d.
Variables w cs h ls : Z.
Hypothesis Hw : 0 <= w.
Hypothesis Hh : 0 <= h.
Hypothesis HL : FontsWithin d w cs h ls.

Definition tame (xs : Outcomes) : Prop :=
  forall ys, suffix ys xs ->
    pieces (ahead ys) < 256 /\ breaks (ahead ys) < 256
    /\ (characters (ahead ys) + breaks (ahead ys)) * (w + cs) < 65536
    /\ (breaks (ahead ys) + 1) * (h + ls) < 65536.

Lemma span_ready_on p s : SignSized d p -> span_ready d s -> SpanOn p s /\ SoundFont d (rs_font (span_state s)) /\ KeepsCells d s /\ Placeable s.
Proof.
  intros (Z1 & Z2) (S1 & S2 & (B1 & B2 & B3) & S4 & S5). destruct sign_size as (Uw & Uh). unfold u16 in Uw, Uh. unfold rect_in in B1. splits; auto.
  - unfold SpanOn. split.
    + unfold rect_fits. lia.
    + unfold InRect, on_raster. intros x y. rewrite Z1, Z2. lia.
  - now apply font_sound.
  - unfold KeepsCells. splits; auto. intros _. split; auto. intros k (f & Hf & ->). apply HCells.
    + eapply FontOf_In; eauto.
    + destruct Hf as [[Hf _] _]. unfold used_font. lia.
Qed.

Lemma text_rect_quiet p raster : Forall (sound d) (ap_rest p) -> tame (ap_rest p) -> ready d (ap_rs p) ->
  rs_line (ap_rs p) = 0 -> rs_span (ap_rs p) = 0 -> SignSized d raster ->
  exists p' r, a_text_rect Debug d p raster = Val (p', r) /\ ready d (ap_rs p') /\ suffix (ap_rest p') (ap_rest p)
    /\ forall q, r = Ok q -> SignSized d q
         /\ (ap_state p' = PsOn false -> rs_line (ap_rs p') = 0 /\ rs_span (ap_rs p') = 0).
Proof.
  intros HX HT HR HL0 HS0 HZ. destruct (HT _ (suffix_refl _)) as (T1 & T2 & T3 & T4).
  set (N := breaks (ahead (ap_rest p))) in *.
  destruct (rtr_quiet (0 <? rs_off_time (ap_rs p)) (ap_rest p) HX (ap_rs p) [] true N) as (e & E & R & F & B & C & G);
    auto; try lia.
  { intros s []. }
  unfold a_text_rect. rewrite E. cbn [bind]. pose proof (a_rtr_suffix _ _ _ _ _ _ _ _ _ E) as SX.
  destruct (a_res e) as [u|er] eqn:Er.
  2:{ eexists _, (Err er). split; [reflexivity|]. cbn. splits; auto. discriminate. }
  destruct (Built_parts d HB) as (P1 & P2 & P3). pose proof (breaks_nonneg (ahead (ap_rest p))) as PB. fold N in PB, C.
  pose proof HZ as (Z1 & Z2). destruct sign_size as (Uw & Uh). unfold u16 in Uw, Uh. pose proof (costs_pos (a_spans e)) as PC.
  assert (99 <= cs /\ 9 <= ls) as [L1 L2] by (split; apply HL).
  destruct (text_spans_quiet d P1 P2 P3 w cs h ls Hw Hh HL N (a_spans e) raster) as (r & Er' & S); auto.
  - apply Forall_forall. intros s I. rewrite Forall_forall in F. apply (F s I).
  - apply Forall_forall. intros s I. rewrite Forall_forall in F. apply (F s I).
  - cbn [costs] in C. nia.
  - intros s I. apply span_ready_on; auto. rewrite Forall_forall in F. apply (F s I).
  - unfold raster_small. lia.
  - rewrite Er'. cbn [bind]. eexists _, r. split; [reflexivity|]. cbn [ap_rs ap_state ap_rest]. splits; auto.
    intros q Eq. destruct (S q Eq) as [S1 S2]. split; [unfold SignSized; lia|]. destruct u. auto.
Qed.

Lemma tame_suffix a b : suffix a b -> tame b -> tame a.
Proof. intros S T ys Y. apply T. eapply suffix_trans; eauto. Qed.
Lemma sound_suffix a b : suffix a b -> Forall (sound d) b -> Forall (sound d) a.
Proof. intros (c & ->) H. apply Forall_app in H. apply H. Qed.

Lemma page_loop_quiet : forall fuel n p raster, Forall (sound d) (ap_rest p) -> tame (ap_rest p) -> ready d (ap_rs p) ->
  (ap_state p = PsOn false -> rs_line (ap_rs p) = 0 /\ rs_span (ap_rs p) = 0) -> SignSized d raster ->
  a_page_loop Debug d fuel n p raster = Hang
  \/ exists p' r, a_page_loop Debug d fuel n p raster = Val (p', r) /\ ready d (ap_rs p').
Proof.
  induction fuel as [|fuel IH]; intros n p raster HX HT HR H0 HZ; [now left|]. cbn [a_page_loop].
  assert (Fin : forall r : result (Raster rgb) SyntaxError, exists p' r', Val (p, r) = Val (p', r') /\ ready d (ap_rs p')) by (intros r; eauto).
  destruct (ap_state p) as [[]|[]|] eqn:Ep; try (right; apply Fin).
  destruct (H0 eq_refl) as [HL0 HS0].
  destruct (graphics_quiet (ap_rest p) HX (rs_ctx (ap_rs p)) raster) as (g & Eg & Sg); auto.
  { destruct HR as ((_ & _ & _ & _ & _ & R) & _). exact R. }
  rewrite Eg. cbn [bind]. destruct g as [q|e]; [|right; apply Fin]. specialize (Sg q eq_refl).
  destruct (text_rect_quiet p q HX HT HR HL0 HS0 Sg) as (p' & r & Et & R' & SX & Sr). rewrite Et. cbn [bind].
  destruct r as [q'|e]; [|right; eauto]. destruct (Sr q' eq_refl) as [Z' C']. cbv zeta.
  destruct (_ <? _); [right; eauto|]. apply IH; auto.
  - eapply sound_suffix; eauto.
  - eapply tame_suffix; eauto.
Qed.

Lemma sound_runs xs : Forall (sound d) xs -> all_run xs.
Proof. apply Forall_impl. intros x (r & -> & _). discriminate. Qed.

Lemma on_page_quiet p : Forall (sound d) (ap_rest p) -> tame (ap_rest p) -> ready d (ap_rs p) ->
  exists p' r, a_on_page Debug d p = Val (p', r) /\ ready d (ap_rs p').
Proof.
  intros HX HT HR. pose proof (on_page_runs Debug d p (sound_runs _ HX)) as RN. unfold runs in RN.
  unfold a_on_page in *. cbv zeta in *.
  destruct (check_quiet (ap_rest p) HX) as (c & Ec). rewrite Ec in *. cbn [bind] in *.
  destruct c as [u|e]; [|eauto].
  destruct HR as (HS & HR). destruct (update_quiet (ap_rest p) (ap_rs p) HX HS) as (rs' & v & Eu & R' & Q & L & N).
  rewrite Eu in *. cbn [bind] in *. destruct v as [v|e]; [|eexists _, _; split; [reflexivity|exact R']].
  destruct (page_loop_quiet 52 0 (mkAP rs' (PsOn false) (ap_rest p)) (build_raster rs')) as [E|(p' & r & E & R2)]; auto.
  - unfold SignSized, build_raster. rewrite Q. split; reflexivity.
  - exfalso. apply RN. rewrite E. reflexivity.
  - rewrite E. cbn [bind]. destruct r; eauto.
Qed.

Lemma take_quiet n : forall p, Forall (sound d) (ap_rest p) -> tame (ap_rest p) -> ready d (ap_rs p) -> quiet (a_take Debug d n p).
Proof.
  induction n as [|n IH]; intros p HX HT HR; [apply quiet_val|]. cbn [a_take].
  assert (N : exists o p', a_next Debug d p = Val (o, p') /\ ready d (ap_rs p')).
  { unfold a_next. destruct (ap_state p).
    - destruct (on_page_quiet p HX HT HR) as (p' & r & E & R). rewrite E. cbn [bind fst snd]. eauto.
    - eexists _, _. split; [reflexivity|exact HR].
    - eauto. }
  destruct N as (o & p' & E & R). pose proof (next_suffix _ _ _ _ _ E) as SX. rewrite E. cbn [bind].
  destruct o; [|apply quiet_val].
  apply quiet_bind; [|intros; apply quiet_val]. apply IH; auto.
  - eapply sound_suffix; eauto.
  - eapply tame_suffix; eauto.
Qed.
End Machine.

(** ** Messages *)

Lemma ahead_stretch : forall rs, exists c, oks rs = ahead (map Val rs) ++ c
  /\ ~ In VNewPage (ahead (map Val rs)) /\ forall r, ~ In (VTextRectangle r) (ahead (map Val rs)).
Proof.
  induction rs as [|[v|e] rs IH]; cbn [map ahead oks].
  - exists []. splits; auto.
  - destruct IH as (c & E & N1 & N2). rewrite E.
    destruct v; try (exists c; cbn [app In]; splits; [reflexivity|intros [X|X]; [discriminate X|auto]|intros r' [X|X]; [discriminate X|eapply N2; eauto]]).
    + eexists. splits; [reflexivity|intros []|intros r' []].
    + eexists. splits; [reflexivity|intros []|intros r' []].
  - eexists. splits; [reflexivity|intros []|intros r' []].
Qed.

Lemma oks_app a b : oks (a ++ b) = oks a ++ oks b.
Proof. induction a as [|[v|e] a IH]; cbn; congruence. Qed.

Lemma suffix_stretch ys rs : suffix ys (map Val rs) -> Stretch (ahead ys) (oks rs).
Proof.
  intros (c & E). apply map_eq_app in E as (r1 & r2 & -> & <- & <-).
  destruct (ahead_stretch r2) as (c & E & N1 & N2). split; [|auto]. rewrite oks_app. exists (oks r1), c. now rewrite E.
Qed.

Lemma safe d ms rs : Built d -> Usable d -> FontsInCells d -> PlaceableDefaults d ->
  Meaning ms rs -> Forall (Renderable d) (oks rs) -> Moderate d (oks rs) ->
  forall md n, exists l, pages_take md d n (pages_new d ms) = Val l.
Proof.
  intros HB HU HC HD HM HR (w & cs & h & ls & Hw & Hh & HL & HS) md n.
  pose proof (Reads_meaning ms rs HM) as RD.
  assert (Q : quiet (pages_take Debug d n (pages_new d ms))).
  { rewrite (take_start Debug d n ms _ RD). apply (take_quiet d HB HU HD HC w cs h ls Hw Hh HL).
    - pose proof (Reads_outcome _ _ RD) as RO. unfold a_start. cbn [ap_rest]. apply Forall_forall. intros x I.
      rewrite Forall_forall in RO, HR. destruct (RO x I) as [->|(r & -> & O)].
      + apply in_map_iff in I as (r & X & _). discriminate X.
      + exists r. split; auto. intros v ->. split; auto. apply HR. apply in_map_iff in I as (r' & X & I). injection X as ->.
        clear - I. induction rs as [|[u|e] rs IH]; cbn in *; [contradiction| |].
        * destruct I as [[= ->]|I]; auto.
        * destruct I as [X|I]; [discriminate X|auto].
    - unfold a_start. cbn [ap_rest]. intros ys Y. apply HS. now apply suffix_stretch.
    - cbn [a_start ap_rs]. now apply ready_new. }
  destruct Q as (l & E). destruct md; eauto. exists l. now apply take_modes.
Qed.

(** ** Short messages *)

Lemma sum_of_app f a b : sum_of f (a ++ b) = sum_of f a + sum_of f b.
Proof. induction a as [|v a IH]; cbn [sum_of app]; lia. Qed.

Lemma stretch_sum f b vs : (forall v, 0 <= f v) -> Stretch b vs -> sum_of f b <= sum_of f vs.
Proof.
  intros H ((a & c & ->) & _). rewrite !sum_of_app. pose proof (sum_of_nonneg f a H). pose proof (sum_of_nonneg f c H). lia.
Qed.

(** Bounds on the whole message bound its stretches. *)
Lemma moderate_whole d vs w cs h ls : 0 <= w -> 0 <= h -> FontsWithin d w cs h ls ->
  pieces vs < 256 -> breaks vs < 256 -> (characters vs + breaks vs) * (w + cs) < 65536 ->
  (breaks vs + 1) * (h + ls) < 65536 -> Moderate d vs.
Proof.
  intros Hw Hh HL H1 H2 H3 H4. exists w, cs, h, ls. splits; auto. intros b Hb.
  assert (99 <= cs /\ 9 <= ls) as [L1 L2] by (split; apply HL).
  assert (pieces b <= pieces vs) by (apply stretch_sum; auto; intros []; lia).
  assert (breaks b <= breaks vs) by (apply stretch_sum; auto; intros []; lia).
  assert (characters b <= characters vs) by (apply stretch_sum; auto; intros []; lia).
  pose proof (breaks_nonneg b). pose proof (characters_nonneg b). splits; try lia; nia.
Qed.

Definition weight_of (v : Value) : Z :=
  match v with
  | VText t => Z.of_nat (List.length t)
  | VHexadecimalCharacter _ => 1
  | VNewLine _ => 2
  | _ => 0
  end.

Lemma token_weight t v : TokenDenotes t (Ok v) -> weight_of v <= Z.of_nat (List.length t).
Proof.
  intros H. remember (Ok v) as r eqn:Er. destruct H; try discriminate Er; injection Er as <-; try (cbn; lia).
  cbn [List.length]. rewrite app_length. cbn [List.length]. destruct H0 as (l & k & r & _ & _ & HA).
  assert (weight_of v0 <= 2) by (clear -HA; destruct HA; cbn [weight_of]; lia). lia.
Qed.

Lemma message_weight ms rs : Meaning ms rs -> sum_of weight_of (oks rs) <= Z.of_nat (List.length ms).
Proof.
  intros (ts & HT & HD). revert rs HD. induction HT as [|t rest ts Ht HT IH]; intros rs HD; inversion HD as [|? r ? rs' H1 H2]; subst; [cbn; lia|].
  specialize (IH rs' H2). rewrite app_length. destruct r as [v|e]; cbn [oks sum_of]; [|lia].
  apply token_weight in H1. lia.
Qed.

Lemma weights vs : Forall value_ok vs -> characters vs + 2 * breaks vs = sum_of weight_of vs /\ pieces vs <= characters vs.
Proof.
  unfold characters, breaks, pieces.
  induction 1 as [|v vs Hv _ [I1 I2]]; cbn [sum_of]; [lia|]. destruct v; cbn [weight_of] in *; try lia.
  destruct Hv as [Hv _]. destruct t; [contradiction|]. cbn [List.length] in *. lia.
Qed.

Lemma oks_value_ok ms rs : Meaning ms rs -> Forall value_ok (oks rs).
Proof.
  intros HM. pose proof (Reads_outcome _ _ (Reads_meaning ms rs HM)) as RO. clear HM.
  induction rs as [|r rs IH]; cbn [oks]; [constructor|]. inversion RO as [|? ? H1 H2]; subst. specialize (IH H2).
  destruct H1 as [X|(r' & [= <-] & O)]; [discriminate X|]. destruct r; auto.
Qed.

Lemma bytes_within d : Built d -> FontsWithin d 255 255 255 255.
Proof.
  intros HB. destruct (Built_parts d HB) as (TF & _ & _). unfold FontsWithin. splits; try lia. intros f I.
  unfold table_fields in TF. rewrite Forall_forall in TF. destruct (TF f I) as (F1 & F2 & F3 & F4 & F5 & _). unfold u8 in *.
  splits; try lia. intros c Ic. rewrite Forall_forall in F5. destruct (F5 c Ic) as (_ & X & _). unfold u8 in X. lia.
Qed.

Lemma safe_short d ms rs : Built d -> Usable d -> FontsInCells d -> PlaceableDefaults d ->
  Meaning ms rs -> Forall (Renderable d) (oks rs) -> Z.of_nat (List.length ms) <= 128 ->
  forall md n, exists l, pages_take md d n (pages_new d ms) = Val l.
Proof.
  intros HB HU HC HD HM HR HL. apply (safe d ms rs); auto.
  pose proof (message_weight ms rs HM) as W. destruct (weights _ (oks_value_ok ms rs HM)) as [W1 W2].
  pose proof (breaks_nonneg (oks rs)). pose proof (characters_nonneg (oks rs)).
  apply (moderate_whole d _ 255 255 255 255); try lia. now apply bytes_within.
Qed.

(** ** Both modes render the same *)

Lemma safe_modes d ms rs : Built d -> Usable d -> FontsInCells d -> PlaceableDefaults d ->
  Meaning ms rs -> Forall (Renderable d) (oks rs) -> Moderate d (oks rs) ->
  forall md md' l, Yields md d ms l -> Yields md' d ms l.
Proof.
  intros HB HU HF HP HM HR HO md md' l (n & E & Hn). exists n. split; auto.
  destruct (safe d ms rs HB HU HF HP HM HR HO Debug n) as (l0 & E0).
  pose proof (take_modes d n ms l0 E0) as E1. destruct md, md'; congruence.
Qed.
