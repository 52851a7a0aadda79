(** C47: blank messages render blank, in both modes. *)

From Coq Require Import String ZifyBool ZifyNat.
From Verif Require Import Base Str Multi Color Raster Font Graphic Config Sign Render
  Spec_Multi Spec_Color Spec_Font Spec_Tfon Spec_Graphic Spec_Sign Spec_Render Spec_Layout Spec_Page
  Proofs_Str Proofs_Font Proofs_Glyph Proofs_Iter Proofs_Color Proofs_Sign Proofs_Machine Proofs_Pages Proofs_Count
  Proofs_Render Proofs_Norm Proofs_Build Proofs_Horiz Proofs_Place Proofs_Each.
Open Scope list_scope.
Ltac Zify.zify_post_hook ::= Z.div_mod_to_equations.

Definition alike (p q : Raster rgb) : Prop := same_size p q /\ forall x y, r_pixel q x y = r_pixel p x y.
Lemma alike_refl p : alike p p. Proof. split; [apply same_size_refl|auto]. Qed.
Lemma alike_trans p q r : alike p q -> alike q r -> alike p r.
Proof. intros [A B] [C D]. split; [eapply same_size_trans; eauto|]. intros. now rewrite D. Qed.

(** ** Characters *)

Lemma dark_char md f c page x y cf q : font_fields f -> In c (f_characters f) ->
  (forall row col, ~ GlyphInks (f_height f) c row col) ->
  render_char md c page x y (f_height f) cf = Val q -> q = page.
Proof.
  intros HF I HD H. destruct HF as (_ & Uh & _ & _ & HC & _). unfold u8 in Uh. rewrite Forall_forall in HC.
  destruct (char_plot (f_height f) c x y cf (HC c I) ltac:(lia)) as (ps & E & IP).
  rewrite E in H. destruct ps as [|[col row] ps].
  - cbn in H. now injection H as <-.
  - exfalso. apply (HD row col), IP. now left.
Qed.

Lemma dark_text md d f : Built d -> BlankSpaces d -> In f (d_fonts d) -> forall t page x y cs cf xx q,
  Forall space t -> raster_small page ->
  render_text_loop md f page t x y cs cf xx = Val (Ok q) -> alike page q.
Proof.
  intros HB HS I. destruct (Built_parts d HB) as (HT & (HV & _) & _).
  assert (HF : font_fields f) by (unfold table_fields in HT; rewrite Forall_forall in HT; auto).
  induction t as [|ch t IH]; intros page x y cs cf xx q HA Hsm H; cbn [render_text_loop] in H.
  { injection H as <-. apply alike_refl. }
  inversion HA as [|? ? Hc HA']; subst.
  destruct (character f ch) as [c|] eqn:EC; [|discriminate].
  apply character_spec in EC as (_ & EN & pre & post & EF & _).
  assert (IC : In c (f_characters f)) by (rewrite EF; apply in_elt).
  apply bind_val in H as (x1 & _ & H). apply bind_val in H as (x2 & _ & H).
  apply bind_val in H as (p1 & E & H). apply bind_val in H as (x3 & _ & H).
  assert (A1 : alike page p1).
  { rewrite <- EN in Hc. apply dark_char in E; auto. subst. apply alike_refl. }
  eapply alike_trans; [exact A1|]. eapply IH; [exact HA'| |exact H].
  destruct A1 as [[A1 A2] _]. unfold raster_small in *. lia.
Qed.

(** ** Spans *)

Definition blank_span (s : Span) : Prop := exists st t, s = SpText st t /\ Forall space t.

Lemma dark_spans md d all : Built d -> BlankSpaces d -> forall todo p q, Forall blank_span todo -> raster_small p ->
  render_spans_loop md d all todo p = Val (Ok q) -> alike p q.
Proof.
  intros HB HS. induction todo as [|s todo IH]; intros p q HF Hsm H; cbn [render_spans_loop] in H.
  { injection H as <-. apply alike_refl. }
  inversion HF as [|? ? (st & t & -> & Ht) HF']; subst.
  apply try_ok in H as (x & _ & H). apply try_ok in H as (y & _ & H).
  apply try_ok in H as (f & EF & H). apply try_ok in H as (r & E & H).
  injection EF as EF. change st with (span_state (SpText st t)) in EF. apply get_font_iff in EF. apply FontOf_In in EF.
  apply map_err_ok in E.
  assert (A1 : alike p r) by (eapply (dark_text md d f HB HS EF); eauto).
  eapply alike_trans; [exact A1|]. apply IH; auto. destruct A1 as [[A1 A2] _]. unfold raster_small in *. lia.
Qed.

Lemma blank_text t : ~ Shown (VText t) -> Forall space t.
Proof.
  intros H. apply Forall_forall. intros c I. destruct (Z_le_dec 9 c), (Z_le_dec c 13), (Z.eq_dec c 32), (Z.eq_dec c 133), (Z.eq_dec c 160);
    try (unfold space; lia); exfalso; apply H; apply (Spec_Multi.Sh_text t c I); unfold space; lia.
Qed.

Lemma rtr_blank md d ds po xs : all_of (fun v => ~ Shown v) xs -> forall rs spans lb e,
  Forall blank_span spans -> a_rtr md d ds po xs rs spans lb = Val e -> Forall blank_span (a_spans e).
Proof.
  induction xs as [|x xs IH]; intros HA rs spans lb e HS H; cbn [a_rtr] in H.
  { injection H as <-. auto. }
  assert (HA' : all_of (fun v => ~ Shown v) xs) by (intros v I; apply HA; now right).
  specialize (IH HA').
  apply bind_val in H as (r & -> & H). destruct r as [v|er]; [|injection H as <-; auto].
  assert (Hv : ~ Shown v) by (apply HA; now left).
  destruct v; try (eapply IH; [|exact H]; exact HS); try (exfalso; apply Hv; constructor; fail).
  - destruct (set_foreground _ _ _) as [ctx [u|er]]; [eapply IH; [|exact H]; auto|injection H as <-; auto].
  - destruct j as [[]|]; try (injection H as <-; exact HS); (eapply IH; [|exact H]; auto).
  - destruct j as [[]|]; try (injection H as <-; exact HS); cbv zeta in H;
      (destruct (negb _); (eapply IH; [|exact H]; auto)).
  - cbv zeta in H. match type of H with (if ?c then _ else _) = _ => destruct c end; [injection H as <-; exact HS|].
    apply bind_val in H as (ln & _ & H). eapply IH; [|exact H]. destruct lb; auto.
    apply Forall_app. split; auto. constructor; auto. exists rs, []. auto.
  - injection H as <-. exact HS.
  - destruct (_ && _); [injection H as <-; exact HS|]. eapply IH; [|exact H]; auto.
  - apply bind_val in H as (sn & _ & H). eapply IH; [|exact H].
    apply Forall_app. split; auto. constructor; auto. eexists rs, _. split; [reflexivity|]. now apply blank_text.
  - apply bind_val in H as (o & _ & H). destruct o; injection H as <-; exact HS.
Qed.

(** ** Pages *)

Lemma graphics_blank md d xs : all_of (fun v => ~ Shown v) xs -> forall ctx p q,
  render_graphics_loop md d (bare xs) ctx p = Val (Ok q) -> q = p.
Proof.
  induction xs as [|x xs IH]; intros HA ctx p q H; cbn [bare map render_graphics_loop] in H.
  { injection H as <-. reflexivity. }
  assert (HA' : all_of (fun v => ~ Shown v) xs) by (intros v I; apply HA; now right).
  specialize (IH HA'). apply try_ok in H as (v & E & H). cbn [fst] in E.
  assert (Hv : ~ Shown v) by (apply HA; left; exact E).
  destruct v; try (eapply IH; exact H); try (exfalso; apply Hv; constructor; fail); try (injection H as <-; reflexivity).
  - destruct (set_background _ _ _) as [c' o]. apply try_ok in H as (u & _ & H). eauto.
  - destruct (set_foreground _ _ _) as [c' o]. apply try_ok in H as (u & _ & H). eauto.
  - discriminate H.
  - discriminate H.
Qed.

Lemma page_loop_blank md d : Built d -> BlankSpaces d -> forall fuel n p raster p' raster',
  all_of (fun v => ~ Shown v) (ap_rest p) -> raster_small raster ->
  a_page_loop md d fuel n p raster = Val (p', Ok raster') -> alike raster raster'.
Proof.
  intros HB HS. induction fuel as [|f IH]; intros n p raster p' raster' HA Hsm H;
    cbn [a_page_loop] in H; [discriminate|].
  destruct (ap_state p) as [[]| |] eqn:Est; try (injection H as <- <-; apply alike_refl).
  apply bind_val in H as (g & HG & H). destruct g as [r1|e]; [|discriminate].
  apply bind_val in H as ([p1 r2] & HT & H). destruct r2 as [r2|e]; [|discriminate].
  unfold a_text_rect in HT. apply bind_val in HT as (e & HE & HT).
  destruct (a_rtr_ok _ _ _ _ _ _ _ _ _ HE) as [_ HOK].
  destruct (a_res e) as [[]|er] eqn:ER; [|discriminate].
  apply bind_val in HT as (r3 & HTS & HT). injection HT as <- ->.
  specialize (HOK eq_refl). cbv zeta in H.
  destruct (MAX_TEXT_RECTANGLES <? n + 1); [discriminate|].
  apply graphics_blank in HG; auto. subst r1.
  pose proof (rtr_blank md d _ _ _ HA _ _ _ _ (Forall_nil _) HE) as HBS.
  unfold render_text_spans in HTS. apply try_ok in HTS as (u & _ & HTS).
  assert (A1 : alike raster r2) by (eapply dark_spans; eauto).
  eapply alike_trans; [exact A1|]. eapply IH; [| |exact H]; cbn [ap_rest].
  - intros v I. apply HA.
    destruct HOK as [vs e Hx _ HR _ _|vs e Hx _ _ _|vs r q e Hx _ _ _ _].
    + rewrite HR in I. destruct I.
    + rewrite Hx. apply in_or_app. right. now right.
    + rewrite Hx. apply in_or_app. right. now right.
  - destruct A1 as [[A1 A2] _]. unfold raster_small in *. lia.
Qed.

Lemma map_ok_inj (a : list Value) : forall b, map (@Ok _ SyntaxError) a = map Ok b -> a = b.
Proof.
  induction a as [|x a IH]; intros [|y b] H; cbn in H; try discriminate H; auto.
  injection H as -> H. f_equal. auto.
Qed.

Lemma Built_vms d : Built d -> vms_fields (d_vms_cfg d).
Proof. intros H. now destruct (Built_parts d H) as (_ & _ & ?). Qed.

Lemma blank_pages md d ms ps : Built d -> BlankSpaces d -> is_blank md ms = Val true ->
  Yields md d ms (map Ok ps) ->
  PagesShow d (fun before pg q => Uniform q (page_background d before pg)) ms ps.
Proof.
  intros HB HS HBl H.
  refine (pages_show md d (kept d) (fun v => ~ Shown v /\ value_ok v) _ _ _ ms ps (kept_new d) _ H).
  - intros before p p' P pg tail HK Hx Hn Ht HV HO.
    apply on_page_ok in HO as (pg' & tail' & Hx' & Hn' & HF & HT & _ & _ & [_ PS _ _] & HD & _ & raster & HL & HR).
    assert (pg' = pg) as ->.
    { rewrite Hx in Hx'. apply okv_split in Hx'; auto; [|eapply PageTail_weak; eauto]. symmetry. tauto. }
    pose proof (kept_start d before _ pg HK) as HK1.
    split; [|eapply kept_same; eauto].
    destruct (Built_vms d HB) as (_ & _ & Uh & Uw & _). unfold u16 in Uh, Uw.
    apply (page_loop_blank md d HB HS) in HL; auto.
    + destruct HL as [_ A]. intros x y _ _. rewrite HR, A. unfold build_raster. cbn [r_pixel with_color].
      now rewrite (kept_page d before pg).
    + intros v I. apply (HV v I).
    + unfold raster_small, build_raster, page_start, page_reset. cbn. lia.
  - now intros v [_ HO].
  - intros vs HM. pose proof (Meaning_oks_ok _ _ HM) as HO. apply is_blank_iff in HBl as (vs' & HM' & HA).
    pose proof (Meaning_fun _ _ _ HM HM') as E. apply map_ok_inj in E. subst vs'.
    rewrite Forall_forall in *. auto.
Qed.
