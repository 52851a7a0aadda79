(** Horizontal layout of text, and the order of justification. *)

From Coq Require Import String.
From Verif Require Import Base Str Multi Color Raster Font Graphic Config Sign Render
  Spec_Multi Spec_Font Spec_Sign Spec_Render Spec_Layout
  Proofs_Str Proofs_Norm Proofs_Color Proofs_Font Proofs_Glyph Proofs_Table Proofs_Tfon Proofs_Sign
  Proofs_Iter Proofs_Machine Proofs_Pages.
From Coq Require Import ZifyBool ZifyNat.
Ltac Zify.zify_post_hook ::= Z.div_mod_to_equations.
Open Scope list_scope.

Lemma chk16_val v w : chk16 Debug v = Val w -> w = v /\ 0 <= v < 65536.
Proof.
  unfold chk16, chk. destruct ((0 <=? v) && (v <? 65536)) eqn:E; intros H; [|discriminate H].
  injection H as <-. lia.
Qed.

(** ** Order of justification *)

Lemma jp_num_rank j : jp_num j = jp_rank j.
Proof. destruct j; reflexivity. Qed.
Lemma jl_num_rank j : jl_num j = jl_rank j.
Proof. destruct j; reflexivity. Qed.

Lemma jp_rank_pos j : 1 <= jp_rank j. Proof. destruct j; cbn; lia. Qed.
Lemma jl_rank_pos j : 1 <= jl_rank j. Proof. destruct j; cbn; lia. Qed.

Definition backwardsb (jp : JustificationPage) (jl : JustificationLine) (ln : Z) (st : RenderState) : bool :=
  (jp_num (rs_jp st) <? jp_num jp)
  || (jp_eqb (rs_jp st) jp && (rs_line st =? ln) && (jl_num (rs_jl st) <? jl_num jl)).

Lemma backwardsb_iff s t : backwardsb (s_jp s) (s_jl s) (s_line s) (span_state t) = true <-> Backwards s t.
Proof.
  unfold backwardsb, Backwards, s_jp, s_jl, s_line.
  rewrite orb_true_iff, !andb_true_iff, jp_eqb_iff, !jp_num_rank, !jl_num_rank. 
  rewrite !Z.ltb_lt, Z.eqb_eq. tauto.
Qed.

Lemma check_just_cases spans : forall s,
  check_just_loop spans (s_jp s) (s_jl s) (s_line s) = Ok tt /\ ~ OutOfOrder (s :: spans)
  \/ check_just_loop spans (s_jp s) (s_jl s) (s_line s) = Err STagConflict /\ OutOfOrder (s :: spans).
Proof.
  induction spans as [|t r IH]; intros s; cbn [check_just_loop].
  - left. split; auto. intros (a & x & y & b & E & _). destruct a as [|z [|]]; discriminate E.
  - fold (backwardsb (s_jp s) (s_jl s) (s_line s) (span_state t)).
    pose proof (backwardsb_iff s t) as B. destruct (backwardsb _ _ _ _).
    + right. split; auto. exists [], s, t, r. split; auto. now apply B.
    + fold (s_jp t) (s_jl t) (s_line t). destruct (IH t) as [[E H]|[E H]]; rewrite E.
      * left. split; auto. intros (a & x & y & b & E' & HB). destruct a as [|z a]; cbn [app] in E'.
        -- injection E' as -> -> ->. apply B in HB. discriminate HB.
        -- injection E' as -> E'. apply H. exists a, x, y, b. auto.
      * right. split; auto. destruct H as (a & x & y & b & E' & HB). exists (s :: a), x, y, b.
        split; auto. cbn. now rewrite E'.
Qed.

Lemma check_justification_cases spans :
  check_justification spans = Ok tt /\ ~ OutOfOrder spans
  \/ check_justification spans = Err STagConflict /\ OutOfOrder spans.
Proof.
  unfold check_justification. destruct spans as [|s r].
  - left. split; auto. intros (a & x & y & b & E & _). destruct a; discriminate E.
  - cbn [check_just_loop].
    replace (_ || _) with false. { apply check_just_cases. }
    symmetry. rewrite orb_false_iff, !jp_num_rank, !jl_num_rank.
    pose proof (jp_rank_pos (rs_jp (span_state s))). pose proof (jl_rank_pos (rs_jl (span_state s))).
    change (jp_num JpOther) with 1. change (jl_num JlOther) with 1.
    split; [lia|]. replace (jl_rank _ <? 1) with false by lia.
    apply andb_false_r.
Qed.

(** ** Fonts and widths *)

Lemma get_font_iff fonts s f : rs_get_font (span_state s) fonts = Ok f <-> FontOf fonts s f.
Proof.
  unfold rs_get_font, FontOf. rewrite <- FirstFont_lookup.
  destruct (font_lookup fonts (rs_font (span_state s))) as [g|]; [|split; [discriminate|intros [H _]; discriminate H]].
  destruct (rs_font_vid (span_state s)) as [v|].
  - destruct (Z.eqb_spec v (font_version_id g)) as [E|E].
    + split; [intros [= <-]; split; auto; intros ? [= <-]; auto|intros [[= <-] _]; auto].
    + split; [discriminate|]. intros [[= <-] H]. exfalso. apply E. now apply H.
  - split; [intros [= <-]; split; auto; intros ? [=]|intros [[= <-] _]; auto].
Qed.

Lemma FontOf_fun fonts s f g : FontOf fonts s f -> FontOf fonts s g -> f = g.
Proof. rewrite <- !get_font_iff. congruence. Qed.

Lemma FontOf_In fonts s f : FontOf fonts s f -> In f fonts.
Proof. intros ((_ & pre & post & -> & _) & _). rewrite in_app_iff. cbn. auto. Qed.

Lemma FontOf_fields fonts s f : table_fields fonts -> FontOf fonts s f -> font_fields f.
Proof. intros H I. apply FontOf_In in I. unfold table_fields in H. rewrite Forall_forall in H. auto. Qed.

Lemma ShowsText_str s t : ShowsText s t -> span_str s = t.
Proof.
  intros H. destruct H as [st t|st c k Hc|st t]; cbn [span_str to_terminator]; auto.
  destruct (Z.eqb_spec c 0); [contradiction|]. f_equal. destruct k; reflexivity.
Qed.

Lemma spacing_fonts s fonts f : FontOf fonts s f -> char_spacing_fonts s fonts = Ok (spacing_in s f).
Proof.
  intros H. unfold char_spacing_fonts, spacing_in. apply get_font_iff in H. rewrite H.
  destruct (rs_char_spacing _); auto.
Qed.

Lemma spacing_u8 s f : span_fields s -> font_fields f -> u8 (spacing_in s f).
Proof.
  intros (H & _) (_ & _ & Hc & _). unfold spacing_in. destruct (rs_char_spacing (span_state s)); auto.
Qed.

Lemma avg_half n : 0 <= n -> Z.shiftr n 1 + Z.land n 1 = half_up n.
Proof.
  intros H. unfold half_up. rewrite Z.shiftr_div_pow2 by lia. change 1 with (Z.ones 1) at 2.
  rewrite Z.land_ones by lia. change (2 ^ 1) with 2. lia.
Qed.

Lemma half_up_bounds a b : u8 a -> u8 b -> u8 (half_up (a + b)).
Proof. unfold u8, half_up. lia. Qed.

Section Widths.
Variable fonts : FontTable.
Hypothesis HF : table_fields fonts.

Lemma span_width_iff s w : span_fields s ->
  (span_width Debug s fonts = Val (Ok w) <-> SpanWidth fonts s w /\ w < 65536).
Proof.
  intros HS. pose proof HS as (_ & _ & _ & _ & t & Ht & _). pose proof (ShowsText_str s t Ht) as Et.
  unfold span_width. rewrite Et. split.
  - intros H. apply try_ok in H. destruct H as (f & Hf & H).
    injection Hf as Hf. apply get_font_iff in Hf.
    apply try_ok in H. destruct H as (sp & Hs & H). injection Hs as Hs.
    rewrite (spacing_fonts _ _ _ Hf) in Hs. injection Hs as <-.
    apply map_err_ok in H.
    pose proof (FontOf_fields _ _ _ HF Hf) as Hff.
    pose proof (spacing_u8 _ _ HS Hff) as Hu. unfold u8 in Hu.
    destruct Hff as (_ & _ & _ & _ & Hcf & _).
    destruct (spells_or_missing f t) as [(cs & Hsp)|(cs & ch & Hm)].
    + destruct (Z_lt_ge_dec (line_width (spacing_in s f) (map c_width cs)) 65536) as [L|L].
      * rewrite (text_width_ok Debug f t (Some (spacing_in s f)) cs) in H; auto; cbn [spacing_of]; [|lia].
        injection H as <-. split; auto. exists f, cs. split; auto. split; auto. exists t. auto.
      * rewrite <- (app_nil_r t) in H.
        rewrite (text_width_panic f t [] (Some (spacing_in s f)) cs) in H; auto; cbn [spacing_of]; try lia.
        discriminate H.
    + exfalso. destruct (Z_lt_ge_dec (line_width (spacing_in s f) (map c_width cs)) 65536) as [L|L].
      * rewrite (text_width_missing Debug f t (Some (spacing_in s f)) cs ch) in H; auto; cbn [spacing_of]; [|lia].
        discriminate H.
      * destruct Hm as (pre & post & -> & Hsp & _).
        rewrite (text_width_panic f pre (ch :: post) (Some (spacing_in s f)) cs) in H; auto; cbn [spacing_of]; try lia.
        discriminate H.
  - intros ((f & cs & (Hf & t' & Ht' & Hsp) & ->) & L).
    assert (t' = t) as -> by (apply ShowsText_str in Ht'; congruence).
    pose proof (FontOf_fields _ _ _ HF Hf) as Hff.
    pose proof (spacing_u8 _ _ HS Hff) as Hu. unfold u8 in Hu.
    destruct Hff as (_ & _ & _ & _ & Hcf & _).
    rewrite (proj2 (get_font_iff _ _ _) Hf). cbn [try]. rewrite (spacing_fonts _ _ _ Hf). cbn [try].
    rewrite (text_width_ok Debug f t (Some (spacing_in s f)) cs); auto; cbn [spacing_of]; lia.
Qed.

Lemma SpanWidth_fun s w v : SpanWidth fonts s w -> SpanWidth fonts s v -> w = v.
Proof.
  intros (f & cs & (Hf & t & Ht & Hs) & ->) (g & ds & (Hg & u & Hu & Hd) & ->).
  pose proof (FontOf_fun _ _ _ _ Hf Hg) as <-. apply ShowsText_str in Ht, Hu. subst t u.
  now rewrite (Spells_fun _ _ _ _ Hs Hd).
Qed.

Lemma SpanWidth_nonneg s w : span_fields s -> SpanWidth fonts s w -> 0 <= w.
Proof.
  intros HS (f & cs & (Hf & t & Ht & Hs) & ->). pose proof (FontOf_fields _ _ _ HF Hf) as Hff.
  pose proof (spacing_u8 _ _ HS Hff) as Hu. unfold u8 in Hu. destruct Hff as (_ & _ & _ & _ & Hcf & _).
  pose proof (widths_nonneg _ _ _ Hcf Hs) as W. rewrite <- line_width_fold by (auto; lia).
  apply acc_mono; auto; lia.
Qed.

Lemma gap_iff p s g fp : table_fields fonts -> span_fields p -> span_fields s -> FontOf fonts p fp ->
  (char_spacing_between s p fonts = Ok g <-> Gap fonts p s g).
Proof.
  intros _ HP HS Hp. pose proof (spacing_u8 _ _ HP (FontOf_fields _ _ _ HF Hp)) as Up.
  unfold char_spacing_between. rewrite (spacing_fonts _ _ _ Hp). split.
  - destruct (rs_char_spacing (span_state s)) as [n|] eqn:E; [intros [= <-]; now constructor|].
    destruct (rs_get_font (span_state s) fonts) as [f|e] eqn:Ef.
    + apply get_font_iff in Ef. rewrite (spacing_fonts _ _ _ Ef). intros [= <-].
      pose proof (spacing_u8 _ _ HS (FontOf_fields _ _ _ HF Ef)) as Us. unfold u8 in *.
      unfold avg_up. rewrite avg_half by lia. now apply Gap_avg.
    + unfold char_spacing_fonts. rewrite E, Ef. discriminate.
  - intros H. destruct H as [n E|f g E H1 H2].
    + now rewrite E.
    + rewrite E, (spacing_fonts _ _ _ H2). pose proof (FontOf_fun _ _ _ _ Hp H1) as <-.
      pose proof (spacing_u8 _ _ HS (FontOf_fields _ _ _ HF H2)) as Us. unfold u8 in *.
      unfold avg_up. now rewrite avg_half by lia.
Qed.

Lemma Gap_fun p s g h : Gap fonts p s g -> Gap fonts p s h -> g = h.
Proof.
  intros [n E|f k E H1 H2] [m E'|f' k' E' H1' H2']; try congruence.
  now rewrite (FontOf_fun _ _ _ _ H1 H1'), (FontOf_fun _ _ _ _ H2 H2').
Qed.

Lemma Gap_u8 p s g : span_fields p -> span_fields s -> Gap fonts p s g -> u8 g.
Proof.
  intros HP HS [n E|f k E H1 H2]; [exact (proj1 HS n E)|].
  apply half_up_bounds; apply spacing_u8; auto; eapply FontOf_fields; eauto.
Qed.

Lemma SpanWidth_font s w : SpanWidth fonts s w -> exists f, FontOf fonts s f.
Proof. intros (f & cs & (Hf & _) & _). eauto. Qed.

(** ** The loop over a run *)

(** Width of spans that come after [prev], with the gap to it. *)
Definition gap_to (p : option Span) (s : Span) (g : Z) : Prop :=
  match p with None => g = 0 | Some q => Gap fonts q s g end.
Inductive Chain : option Span -> list Span -> Z -> Prop :=
| Ch_nil p : Chain p [] 0
| Ch_cons p s r g w v : gap_to p s g -> SpanWidth fonts s w -> Chain (Some s) r v ->
    Chain p (s :: r) (g + w + v).

Lemma Chain_inv p s r v : Chain p (s :: r) v ->
  exists g w u, gap_to p s g /\ SpanWidth fonts s w /\ Chain (Some s) r u /\ v = g + w + u.
Proof. intros H. inversion H; subst. eauto 8. Qed.

Lemma gap_to_fun p s g h : gap_to p s g -> gap_to p s h -> g = h.
Proof. destruct p; cbn; [apply Gap_fun|congruence]. Qed.

Lemma Chain_fun : forall l p v w, Chain p l v -> Chain p l w -> v = w.
Proof.
  induction l as [|s r IH]; intros p v w H K; [inversion H; inversion K; subst; auto|].
  apply Chain_inv in H, K. destruct H as (g & x & u & G & W & C & ->), K as (g' & x' & u' & G' & W' & C' & ->).
  now rewrite (gap_to_fun _ _ _ _ G G'), (SpanWidth_fun _ _ _ W W'), (IH _ _ _ C C').
Qed.

Definition opt_fields (p : option Span) : Prop := forall s, p = Some s -> span_fields s.

Lemma gap_to_nonneg p s g : opt_fields p -> span_fields s -> gap_to p s g -> 0 <= g.
Proof.
  intros HP HS. destruct p as [q|]; cbn [gap_to]; [|lia]. intros H. apply Gap_u8 in H; auto.
  unfold u8 in H. lia.
Qed.

Lemma Chain_nonneg : forall l p v, Forall span_fields l -> opt_fields p -> Chain p l v -> 0 <= v.
Proof.
  induction l as [|s r IH]; intros p v HL HP H; [inversion H; lia|]. inversion HL; subst.
  apply Chain_inv in H. destruct H as (g & x & u & G & W & C & ->).
  apply gap_to_nonneg in G; auto. apply SpanWidth_nonneg in W; auto. apply IH in C; auto; [lia|].
  intros ? [= <-]; auto.
Qed.

Lemma Chain_app : forall a p b v, Chain p (a ++ b) v <->
  exists u w, Chain p a u /\ Chain (match rev a with [] => p | s :: _ => Some s end) b w /\ v = u + w.
Proof.
  induction a as [|s a IH]; intros p b v; cbn [app rev].
  - split; [intros H; exists 0, v; splits; [constructor|auto|lia]|].
    intros (u & w & H1 & H2 & ->). inversion H1; subst. now rewrite Z.add_0_l.
  - replace (match rev a ++ [s] with [] => p | x :: _ => Some x end)
      with (match rev a with [] => Some s | x :: _ => Some x end) by (destruct (rev a); auto).
    split.
    + intros H. apply Chain_inv in H. destruct H as (g & x & u & G & W & C & ->).
      apply IH in C. destruct C as (u' & w' & H5 & H6 & ->). exists (g + x + u'), w'.
      splits; auto; [now constructor|lia].
    + intros (u & w & H1 & H2 & ->). apply Chain_inv in H1. destruct H1 as (g & x & u' & G & W & C & ->).
      rewrite <- Z.add_assoc. constructor; auto. apply IH. exists u', w. auto.
Qed.

Lemma RunWidth_inv s t r v : RunWidth fonts (s :: t :: r) v ->
  exists w g u, SpanWidth fonts s w /\ Gap fonts s t g /\ RunWidth fonts (t :: r) u /\ v = w + g + u.
Proof. intros H. inversion H; subst. eauto 8. Qed.

Lemma RunWidth_chain s r v : RunWidth fonts (s :: r) v <-> Chain None (s :: r) v.
Proof.
  revert s v. induction r as [|t r IH]; intros s v; split; intros H.
  - inversion H; subst. replace v with (0 + v + 0) by lia. repeat constructor; auto.
  - apply Chain_inv in H. destruct H as (g & x & u & -> & W & C & ->). inversion C; subst.
    rewrite Z.add_0_r. now constructor.
  - apply RunWidth_inv in H. destruct H as (w & g & u & W & G & R & ->). apply IH in R.
    apply Chain_inv in R. destruct R as (z & x & y & -> & W' & C & ->).
    replace (w + g + (0 + x + y)) with (0 + w + (g + x + y)) by lia.
    constructor; [reflexivity|auto|]. now constructor.
  - apply Chain_inv in H. destruct H as (z & x & u & -> & W & C & ->).
    apply Chain_inv in C. destruct C as (g & y & u' & G & W' & C & ->). cbn [gap_to] in G.
    replace (0 + x + (g + y + u')) with (x + g + (0 + y + u')) by lia.
    constructor; auto. apply IH. now constructor.
Qed.

Lemma Before_chain pre s b : Before fonts pre s b <->
  exists u, Chain None pre u /\ match rev pre with [] => b = u | p :: _ => exists g, Gap fonts p s g /\ b = u + g end.
Proof.
  split.
  - intros [s'|a p s' w g H G]; [exists 0; split; [constructor|reflexivity]|].
    rewrite rev_app_distr. cbn [rev app]. exists w. split; [|eauto].
    destruct a; [now apply RunWidth_chain in H|]. now apply RunWidth_chain in H.
  - intros (u & H & K). destruct (rev pre) as [|p q] eqn:E.
    + apply (f_equal (@rev Span)) in E. rewrite rev_involutive in E. cbn in E. subst pre. inversion H; subst. constructor.
    + apply (f_equal (@rev Span)) in E. rewrite rev_involutive in E. cbn in E. subst pre.
      destruct K as (g & G & ->). constructor; auto.
      destruct (rev q ++ [p]) eqn:Eq; [destruct (rev q); discriminate|]. now apply RunWidth_chain.
Qed.

Definition prev_ok (p : option Span) : Prop :=
  forall s, p = Some s -> span_fields s /\ exists f, FontOf fonts s f.

(** One step of the loop. *)
Lemma hloop_step rs s r p b a g w : span_fields s -> prev_ok p ->
  gap_to p s g -> SpanWidth fonts s w ->
  0 <= b -> 0 <= a -> b + a + g + w < 65536 ->
  offset_horiz_loop Debug fonts rs (s :: r) p b a
  = (if rs_span (span_state s) <? rs_span rs then offset_horiz_loop Debug fonts rs r (Some s) (b + g + w) a
     else if rs_span (span_state s) <=? rs_span rs then offset_horiz_loop Debug fonts rs r (Some s) (b + g) (a + w)
     else offset_horiz_loop Debug fonts rs r (Some s) b (a + g + w)).
Proof.
  intros HS HP HG HW Hb Ha L. pose proof (SpanWidth_nonneg _ _ HS HW) as Hw.
  assert (Hg : 0 <= g) by (apply (gap_to_nonneg p s); auto; intros x Hx; now apply HP).
  cbn [offset_horiz_loop].
  assert (EW : span_width Debug s fonts = Val (Ok w)) by (apply span_width_iff; auto; split; auto; lia).
  destruct p as [q|].
  - destruct (HP q eq_refl) as (HQ & fq & Hq). rewrite (proj2 (gap_iff _ _ _ _ HF HQ HS Hq) HG). cbn [try].
    destruct (rs_span (span_state s) <=? rs_span rs) eqn:Ele.
    + rewrite chk16_in by lia. cbn [bind try]. rewrite EW. cbn [try].
      destruct (_ <? _); rewrite chk16_in by lia; reflexivity.
    + replace (rs_span (span_state s) <? rs_span rs) with false by lia.
      rewrite chk16_in by lia. cbn [bind try]. rewrite EW. cbn [try]. rewrite chk16_in by lia. reflexivity.
  - cbn [gap_to] in HG. subst g. cbn [try]. rewrite EW. cbn [try].
    destruct (rs_span (span_state s) <? rs_span rs) eqn:Elt; rewrite chk16_in by lia; cbn [bind].
    + now rewrite Z.add_0_r.
    + rewrite !Z.add_0_r. destruct (_ <=? _); reflexivity.
Qed.

(** A result of the loop comes from widths of all the spans. *)
Lemma hloop_inv rs : forall l p b a b' a', Forall span_fields l -> prev_ok p -> 0 <= b -> 0 <= a ->
  offset_horiz_loop Debug fonts rs l p b a = Val (Ok (b', a')) ->
  exists v, Chain p l v /\ b' + a' = b + a + v /\ b <= b' /\ a <= a'
    /\ (forall s w, In s l -> rs_span rs <= s_number s -> SpanWidth fonts s w -> w <= a' - a).
Proof.
  induction l as [|s r IH]; intros p b a b' a' HL HP Hb Ha H.
  - cbn [offset_horiz_loop] in H. injection H as <- <-. exists 0.
    splits; try lia; [constructor|]. intros s w [].
  - inversion HL as [|? ? HS HR]; subst.
    assert (HX : exists b1 a1 g, gap_to p s g
        /\ b1 + a1 = b + a + g /\ b <= b1 /\ a <= a1 /\ exists w, span_width Debug s fonts = Val (Ok w)
        /\ exists b2 a2, offset_horiz_loop Debug fonts rs r (Some s) b2 a2 = Val (Ok (b', a'))
             /\ b1 <= b2 /\ a1 <= a2 /\ b2 + a2 = b1 + a1 + w /\ (rs_span rs <= s_number s -> a2 = a1 + w)).
    { cbn [offset_horiz_loop] in H. apply try_ok in H. destruct H as ([b1 a1] & E1 & H).
      apply try_ok in H. destruct H as (w & EW & H).
      pose proof (proj1 (span_width_iff s w HS) EW) as [SW _].
      pose proof (SpanWidth_nonneg _ _ HS SW) as Hw.
      assert (G : exists g, gap_to p s g
          /\ b1 + a1 = b + a + g /\ b <= b1 /\ a <= a1).
      { destruct p as [q|].
        - destruct (HP q eq_refl) as (HQ & fq & Hq).
          apply try_ok in E1. destruct E1 as (g & Eg & E1). injection Eg as Eg.
          apply (gap_iff _ _ _ _ HF HQ HS Hq) in Eg. pose proof (Gap_u8 _ _ _ HQ HS Eg) as Ug. unfold u8 in Ug.
          exists g. split; auto.
          destruct (_ <=? _); apply bind_val in E1; destruct E1 as (x & Ex & E1); apply chk16_val in Ex;
            injection E1 as <- <-; lia.
        - injection E1 as <- <-. exists 0. cbn [gap_to]. lia. }
      destruct G as (g & G1 & G2 & G3 & G4). exists b1, a1, g. splits; auto. exists w. split; auto.
      unfold s_number. destruct (_ <? _) eqn:Elt; apply bind_val in H; destruct H as (x & Ex & H); apply chk16_val in Ex;
        destruct Ex as [-> Ex]; eexists; eexists; (split; [exact H|]); splits; lia. }
    destruct HX as (b1 & a1 & g & HG & Hs1 & Hb1 & Ha1 & w & EW & b2 & a2 & HL2 & Hb2 & Ha2 & Hs2 & Hn).
    pose proof (proj1 (span_width_iff s w HS) EW) as [SW _].
    apply IH in HL2; auto; try lia.
    2:{ intros x [= <-]. split; auto. eapply SpanWidth_font; eauto. }
    destruct HL2 as (v & HC & E & Hb3 & Ha3 & HI). exists (g + w + v). splits; try lia.
    + now constructor.
    + intros t u [<-|I] Hn' SU.
      * rewrite (SpanWidth_fun _ _ _ SU SW). specialize (Hn Hn'). lia.
      * specialize (HI t u I Hn' SU). lia.
Qed.

(** The value of the loop when the spans [pre] come first, then [s], then [post]. *)
Lemma hloop_after rs : forall l p b a v, Forall span_fields l -> prev_ok p ->
  Forall (fun t => rs_span rs < s_number t) l -> Chain p l v -> 0 <= b -> 0 <= a -> b + a + v < 65536 ->
  offset_horiz_loop Debug fonts rs l p b a = Val (Ok (b, a + v)).
Proof.
  induction l as [|s r IH]; intros p b a v HL HP HN HC Hb Ha L.
  - inversion HC; subst. cbn. now rewrite Z.add_0_r.
  - inversion HL as [|? ? HS HR]; subst. inversion HN as [|? ? HN1 HN2]; subst.
    apply Chain_inv in HC. destruct HC as (g & w & u & HG & HW & HU & ->).
    assert (Hu : 0 <= u). { eapply Chain_nonneg; [exact HR| |exact HU]. intros ? [= <-]; auto. }
    pose proof (SpanWidth_nonneg _ _ HS HW) as Hw.
    assert (Hg : 0 <= g) by (apply (gap_to_nonneg p s); auto; intros x Hx; now apply HP).
    rewrite (hloop_step rs s r p b a g w) by (auto; lia). unfold s_number in HN1.
    replace (_ <? _) with false by lia. replace (_ <=? _) with false by lia.
    rewrite (IH (Some s) b (a + g + w) u); auto; try lia.
    + do 3 f_equal. lia.
    + intros ? [= <-]. split; auto. eapply SpanWidth_font; eauto.
Qed.

Lemma hloop_before rs rest : forall l p b a v, Forall span_fields l -> prev_ok p ->
  Forall (fun t => s_number t < rs_span rs) l -> Chain p l v -> 0 <= b -> 0 <= a -> b + a + v < 65536 ->
  offset_horiz_loop Debug fonts rs (l ++ rest) p b a
  = offset_horiz_loop Debug fonts rs rest (match rev l with [] => p | x :: _ => Some x end) (b + v) a.
Proof.
  induction l as [|s r IH]; intros p b a v HL HP HN HC Hb Ha L.
  - inversion HC; subst. cbn [app rev]. now rewrite Z.add_0_r.
  - inversion HL as [|? ? HS HR]; subst. inversion HN as [|? ? HN1 HN2]; subst.
    apply Chain_inv in HC. destruct HC as (g & w & u & HG & HW & HU & ->).
    assert (Hu : 0 <= u). { eapply Chain_nonneg; [exact HR| |exact HU]. intros ? [= <-]; auto. }
    pose proof (SpanWidth_nonneg _ _ HS HW) as Hw.
    assert (Hg : 0 <= g) by (apply (gap_to_nonneg p s); auto; intros x Hx; now apply HP).
    cbn [app]. rewrite (hloop_step rs s (r ++ rest) p b a g w) by (auto; lia). unfold s_number in HN1.
    replace (_ <? _) with true by lia.
    rewrite (IH (Some s) (b + g + w) a u); auto; try lia.
    + cbn [rev]. destruct (rev r); cbn [app]; f_equal; lia.
    + intros ? [= <-]. split; auto. eapply SpanWidth_font; eauto.
Qed.

(** Without regard to numbers: the sum of both parts. *)
Lemma hloop_total rs : forall l p b a v, Forall span_fields l -> prev_ok p ->
  Chain p l v -> 0 <= b -> 0 <= a -> b + a + v < 65536 ->
  exists b' a', offset_horiz_loop Debug fonts rs l p b a = Val (Ok (b', a')) /\ b' + a' = b + a + v.
Proof.
  induction l as [|s r IH]; intros p b a v HL HP HC Hb Ha L.
  - inversion HC; subst. exists b, a. split; [reflexivity|lia].
  - inversion HL as [|? ? HS HR]; subst. apply Chain_inv in HC. destruct HC as (g & w & u & HG & HW & HU & ->).
    assert (Hu : 0 <= u). { eapply Chain_nonneg; [exact HR| |exact HU]. intros ? [= <-]; auto. }
    pose proof (SpanWidth_nonneg _ _ HS HW) as Hw.
    assert (Hg : 0 <= g) by (apply (gap_to_nonneg p s); auto; intros x Hx; now apply HP).
    rewrite (hloop_step rs s r p b a g w) by (auto; lia).
    assert (HP' : prev_ok (Some s)). { intros ? [= <-]. split; auto. eapply SpanWidth_font; eauto. }
    destruct (_ <? _); [|destruct (_ <=? _)].
    + destruct (IH (Some s) (b + g + w) a u) as (b' & a' & E & Es); auto; try lia. exists b', a'. split; auto. lia.
    + destruct (IH (Some s) (b + g) (a + w) u) as (b' & a' & E & Es); auto; try lia. exists b', a'. split; auto. lia.
    + destruct (IH (Some s) b (a + g + w) u) as (b' & a' & E & Es); auto; try lia. exists b', a'. split; auto. lia.
Qed.

Lemma gap_exists p s : (forall q, p = Some q -> exists f, FontOf fonts q f) -> (exists f, FontOf fonts s f) ->
  exists g, gap_to p s g.
Proof.
  intros HP (f & Hf). destruct p as [q|]; cbn [gap_to]; [|eauto].
  destruct (HP q eq_refl) as (h & Hh). destruct (rs_char_spacing (span_state s)) as [n|] eqn:E.
  - exists n. now constructor.
  - eexists. now apply (Gap_avg fonts q s h f).
Qed.

Lemma AllSet_chain : forall l p, AllSet fonts l -> (forall q, p = Some q -> exists f, FontOf fonts q f) ->
  exists v, Chain p l v.
Proof.
  induction l as [|s r IH]; intros p HA HP; [exists 0; constructor|].
  destruct (HA s) as (f & cs & HS); [cbn; auto|].
  destruct (gap_exists p s HP) as (g & G). { exists f. apply HS. }
  destruct (IH (Some s)) as (v & C).
  - intros x I. apply HA. cbn; auto.
  - intros q [= <-]. exists f. apply HS.
  - eexists. econstructor; eauto. exists f, cs. split; eauto.
Qed.
End Widths.

(** ** Runs *)

Lemma Picked_filter {A} (P : A -> Prop) (f : A -> bool) l g : (forall x, f x = true <-> P x) ->
  (Picked P l g <-> g = filter f l).
Proof.
  intros H. split.
  - induction 1 as [|x l g Hx _ IH|x l g Hx _ IH]; cbn [filter]; auto.
    + rewrite (proj2 (H x) Hx). now f_equal.
    + destruct (f x) eqn:E; auto. exfalso. apply Hx. now apply H.
  - intros ->. induction l as [|x l IH]; cbn [filter]; [constructor|].
    destruct (f x) eqn:E; constructor; auto; [now apply H|]. rewrite <- H, E. discriminate.
Qed.

Lemma matches_span_iff s t : matches_span (span_state s) (span_state t) = true <-> SameRun s t.
Proof.
  unfold matches_span, SameRun, s_jp, s_jl, s_line.
  rewrite !andb_true_iff, jp_eqb_iff, jl_eqb_iff, Z.eqb_eq. intuition.
Qed.

Definition run_of (all : list Span) (s : Span) : list Span :=
  filter (fun t => matches_span (span_state s) (span_state t)) all.

Lemma run_of_picked all s g : Picked (SameRun s) all g <-> g = run_of all s.
Proof. apply Picked_filter. intros x. apply matches_span_iff. Qed.

Lemma SameRun_refl s : SameRun s s.
Proof. unfold SameRun. auto. Qed.

Lemma run_of_self all s : In s all -> In s (run_of all s).
Proof. intros H. apply filter_In. split; auto. apply matches_span_iff, SameRun_refl. Qed.

Lemma run_of_fields all s : Forall span_fields all -> Forall span_fields (run_of all s).
Proof. rewrite !Forall_forall. intros H x I. apply filter_In in I. apply H, I. Qed.

Lemma run_of_split x s y : exists pre post, run_of (x ++ s :: y) s = pre ++ s :: post
  /\ (forall t, In t pre -> In t x /\ SameRun s t) /\ (forall t, In t post -> In t y /\ SameRun s t).
Proof.
  unfold run_of. rewrite filter_app. cbn [filter].
  rewrite (proj2 (matches_span_iff s s) (SameRun_refl s)).
  eexists. eexists. split; [reflexivity|].
  split; intros t I; apply filter_In in I; destruct I as [I M]; split; auto; now apply matches_span_iff.
Qed.

Section Runs.
Variable d : Dms.
Hypothesis HF : table_fields (d_fonts d).
Local Notation fonts := (d_fonts d).

Lemma opt_none : opt_fields None.
Proof. intros s E. discriminate E. Qed.

Lemma prev_none : prev_ok fonts None.
Proof. intros s E. discriminate E. Qed.

Lemma RunWidth_run spans s v : In s spans ->
  (RunWidth fonts (run_of spans s) v <-> Chain fonts None (run_of spans s) v).
Proof.
  intros I. pose proof (run_of_self _ _ I) as J. destruct (run_of spans s) as [|t r]; [destruct J|].
  apply RunWidth_chain.
Qed.

(** A result of [offset_horiz]. *)
Lemma horiz_ok spans s b a : Forall span_fields spans -> In s spans ->
  offset_horiz Debug d spans s = Val (Ok (b, a)) ->
  RunWidth fonts (run_of spans s) (b + a) /\ 0 <= b /\ 0 <= a /\ b + a <= rwidth (s_rect s)
  /\ b + a < 65536 /\ exists w, SpanWidth fonts s w /\ 0 <= w <= a.
Proof.
  intros HS I H. unfold offset_horiz in H. apply try_ok in H. destruct H as ([b' a'] & E & H).
  apply bind_val in H. destruct H as (t & Et & H). apply chk16_val in Et. destruct Et as [-> Lt].
  fold (run_of spans s) in E.
  destruct (Z.leb_spec (b' + a') (rwidth (rs_rect (span_state s)))) as [L|L]; [|discriminate H].
  injection H as <- <-.
  destruct (hloop_inv fonts HF _ _ _ _ _ _ _ (run_of_fields _ s HS) prev_none (Z.le_refl 0) (Z.le_refl 0) E)
    as (v & C & Es & Hb & Ha & HW).
  pose proof (run_of_self _ _ I) as J.
  assert (X : exists w, SpanWidth fonts s w).
  { apply in_split in J. destruct J as (p & q & Eq). rewrite Eq in C. apply Chain_app in C.
    destruct C as (u1 & u2 & _ & C & _). apply Chain_inv in C. destruct C as (g & w & u & _ & W & _). eauto. }
  destruct X as (w & W). splits; auto; try lia.
  - apply RunWidth_run; auto. replace (b' + a') with v by lia. exact C.
  - exists w. split; auto. split.
    + apply (SpanWidth_nonneg fonts HF s); auto. rewrite Forall_forall in HS. auto.
    + specialize (HW s w J (Z.le_refl _) W). lia.
Qed.

(** The value of [offset_horiz]. *)
Lemma horiz_eval spans s v : Forall span_fields spans -> In s spans ->
  RunWidth fonts (run_of spans s) v -> v < 65536 ->
  exists b a, offset_horiz Debug d spans s
      = Val (if v <=? rwidth (s_rect s) then Ok (b, a) else Err STextTooBig) /\ b + a = v.
Proof.
  intros HS I R L. apply RunWidth_run in R; auto.
  pose proof (Chain_nonneg fonts HF _ _ _ (run_of_fields _ s HS) opt_none R) as Hv.
  destruct (hloop_total fonts HF (span_state s) _ _ 0 0 _ (run_of_fields _ s HS) prev_none R) as (b & a & E & Es); try lia.
  unfold offset_horiz. fold (run_of spans s). rewrite E. cbn [try]. rewrite chk16_in by lia. cbn [bind].
  exists b, a. replace (b + a) with v by lia. split; auto.
Qed.

(** With increasing numbers the first part is what comes before the span. *)
Lemma horiz_before x s y : Forall span_fields (x ++ s :: y) -> Numbered (x ++ s :: y) ->
  forall b a, offset_horiz Debug d (x ++ s :: y) s = Val (Ok (b, a)) ->
  exists pre post, run_of (x ++ s :: y) s = pre ++ s :: post /\ Before fonts pre s b.
Proof.
  intros HS HN b a H.
  destruct (horiz_ok _ s b a HS (in_elt _ _ _) H) as (R & Hb & Ha & _ & L & _).
  destruct (run_of_split x s y) as (pre & post & E & H1 & H2). exists pre, post. split; auto.
  apply RunWidth_run in R; [|apply in_elt]. rewrite E in R. apply Chain_app in R.
  destruct R as (u & w' & C1 & C2 & Ev). apply Chain_inv in C2. destruct C2 as (g & w & u2 & G & W & C3 & ->).
  pose proof (run_of_fields _ s HS) as HS'. rewrite E in HS'. apply Forall_app in HS'. destruct HS' as [F1 F2].
  inversion F2 as [|? ? Fs F3]; subst.
  assert (N1 : Forall (fun t => s_number t < rs_span (span_state s)) pre).
  { apply Forall_forall. intros t I. destruct (H1 t I) as [J M]. apply in_split in J. destruct J as (p & q & ->).
    apply (HN p t q s y); [now rewrite <- app_assoc|]. destruct M as (M1 & M2 & M3). unfold SameRun. auto. }
  assert (N2 : Forall (fun t => rs_span (span_state s) < s_number t) post).
  { apply Forall_forall. intros t I. destruct (H2 t I) as [J M]. apply in_split in J. destruct J as (p & q & ->).
    now apply (HN x s p t q). }
  assert (P1 : prev_ok fonts (match rev pre with [] => None | s0 :: _ => Some s0 end)).
  { intros t Et. destruct (rev pre) as [|p0 q] eqn:Er; [discriminate Et|]. injection Et as ->.
    apply (f_equal (@rev Span)) in Er. rewrite rev_involutive in Er. cbn [rev] in Er. subst pre.
    apply Forall_app in F1. destruct F1 as [_ F1]. inversion F1; subst. split; auto.
    apply Chain_app in C1. destruct C1 as (? & ? & _ & C & _). apply Chain_inv in C.
    destruct C as (? & ? & ? & _ & W' & _). eapply SpanWidth_font; eauto. }
  assert (P2 : prev_ok fonts (Some s)). { intros t [= <-]. split; auto. eapply SpanWidth_font; eauto. }
  pose proof (Chain_nonneg fonts HF _ _ _ F1 opt_none C1) as Hu.
  assert (Hu2 : 0 <= u2). { eapply (Chain_nonneg fonts HF _ _ _ F3); [|exact C3]. intros ? [= <-]; auto. }
  pose proof (SpanWidth_nonneg fonts HF _ _ Fs W) as Hw.
  assert (Hg : 0 <= g). { apply (gap_to_nonneg fonts HF) in G; auto. intros t Et. now apply P1. }
  unfold offset_horiz in H. fold (run_of (x ++ s :: y) s) in H. rewrite E in H.
  rewrite (hloop_before fonts HF _ _ pre None 0 0 u) in H by (auto using prev_none; lia).
  rewrite (hloop_step fonts HF _ s post _ (0 + u) 0 g w) in H by (auto; lia).
  rewrite Z.ltb_irrefl, Z.leb_refl in H.
  rewrite (hloop_after fonts HF _ post (Some s) (0 + u + g) (0 + w) u2) in H by (auto; lia).
  cbn [try] in H. apply bind_val in H. destruct H as (t & _ & H).
  destruct (_ <=? _); [|discriminate H]. injection H as <- <-.
  apply Before_chain. exists u. split; auto. destruct (rev pre) as [|p0 q]; cbn [gap_to] in G.
  - lia.
  - exists g. split; [exact G|lia].
Qed.

(** ** Columns *)

Lemma cell_mul c n : 0 <= c -> (n / Z.max c 1) * Z.max c 1 = cell c n.
Proof.
  intros H. unfold cell. destruct (Z.leb_spec c 1) as [L|L].
  - replace (Z.max c 1) with 1 by lia. rewrite Z.div_1_r. lia.
  - replace (Z.max c 1) with c by lia. lia.
Qed.

Lemma cell_range c n : 0 <= n -> 0 <= cell c n <= n.
Proof.
  intros H. unfold cell. destruct (Z.leb_spec c 1) as [L|L]; [lia|].
  pose proof (Z.mul_div_le n c ltac:(lia)). pose proof (Z.div_pos n c). nia.
Qed.

Lemma cell_above c n m : on_boundary c m -> 0 <= c -> m <= n -> m <= cell c n.
Proof.
  intros B Hc H. unfold cell. destruct (Z.leb_spec c 1) as [L|L]; [lia|].
  destruct B as [->|(k & ->)]; [lia|].
  assert (k <= n / c) by (apply Z.div_le_lower_bound; lia). nia.
Qed.

Definition can_x (j : JustificationLine) : Prop := j = JlLeft \/ j = JlCenter \/ j = JlRight.

Lemma span_x_calc spans s b a : 0 <= char_width_pixels (d_vms_cfg d) -> can_x (s_jl s) -> rect_fits (s_rect s) ->
  offset_horiz Debug d spans s = Val (Ok (b, a)) -> 0 <= b -> 0 <= a -> b + a <= rwidth (s_rect s) ->
  exists x, span_x Debug d spans s = Val (Ok x)
    /\ place_x (s_jl s) (char_width_pixels (d_vms_cfg d)) (rx (s_rect s) - 1) (rwidth (s_rect s)) (b + a) b x.
Proof.
  intros Hc J (F1 & F2 & F3 & F4 & F5 & F6) E Hb Ha L. unfold span_x. fold (s_jl s).
  unfold s_rect in *.
  destruct J as [J|[J|J]]; rewrite J; cbn [place_x].
  - unfold span_x_left. rewrite chk16_in by lia. cbn [bind]. rewrite E. cbn [try fst].
    rewrite chk16_in by lia. cbn [bind]. eauto.
  - unfold span_x_center. rewrite chk16_in by lia. cbn [bind]. rewrite E. cbn [try].
    do 4 (rewrite chk16_in by lia; cbn [bind]).
    unfold r_char_width, char_width. rewrite cell_mul by auto.
    match goal with |- context [cell ?c ?n] => pose proof (cell_range c n ltac:(lia)) end.
    rewrite chk16_in by lia. cbn [bind]. eexists. split; [reflexivity|]. do 2 f_equal. lia.
  - unfold span_x_right. rewrite chk16_in by lia. cbn [bind]. rewrite E. cbn [try snd].
    do 2 (rewrite chk16_in by lia; cbn [bind]). eexists. split; [reflexivity|]. lia.
Qed.

Lemma span_x_horiz spans s r : span_x Debug d spans s = Val r ->
  exists q, offset_horiz Debug d spans s = Val q /\ (forall e, r = Err e <-> q = Err e) /\ can_x (s_jl s).
Proof.
  unfold span_x. fold (s_jl s). unfold can_x.
  destruct (s_jl s); try discriminate;
    [unfold span_x_left|unfold span_x_center|unfold span_x_right]; intros H;
    apply bind_val in H; destruct H as (l & _ & H);
    (destruct (offset_horiz Debug d spans s) as [[[b a]|e]| |]; cbn [try] in H; try discriminate H;
      [|injection H as <-; exists (Err e); splits; auto; intros; split; congruence]);
    eexists; (splits; [reflexivity| |auto]); intros e; (split; [|discriminate]); intros ->;
    repeat (apply bind_val in H; destruct H as (? & _ & H)); discriminate H.
Qed.

(** ** The box of a span *)

Lemma place_x_box cw left w b a x wd j : 0 <= cw -> place_x j cw left w (b + a) b x ->
  0 <= b -> 0 <= wd <= a -> b + a <= w -> (j = JlCenter -> on_boundary cw left) ->
  left <= x /\ x + wd <= left + w.
Proof.
  intros Hc P Hb Ha L B. destruct j; cbn [place_x] in P; try contradiction; subst x; try lia.
  pose proof (cell_above cw (left + (w - (b + a)) / 2 + b) left (B eq_refl) Hc ltac:(lia)).
  split; auto. unfold cell in *. destruct (Z.leb_spec cw 1); [lia|].
  pose proof (Z.mul_div_le (left + (w - (b + a)) / 2 + b) cw ltac:(lia)). lia.
Qed.

End Runs.
