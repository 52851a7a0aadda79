(** Colours of pages. *)

From Coq Require Import String Lia.
From Verif Require Import Base Str Multi Color Raster Font Graphic Config Sign Render
  Spec_Multi Spec_Color Spec_Font Spec_Tfon Spec_Graphic Spec_Sign Spec_Render Spec_Layout Spec_Draw Spec_Page Spec_Gamut
  Proofs_Str Proofs_Iter Proofs_Color Proofs_Graphic Proofs_Sign Proofs_Machine Proofs_Reach Proofs_Render
  Proofs_Split Proofs_Parse Proofs_Tag Proofs_Build Proofs_Place Proofs_Pages Proofs_Page Proofs_Norm Proofs_Safe.
From Coq Require Import ZifyBool ZifyNat.
Ltac Zify.zify_post_hook ::= Z.div_mod_to_equations.
Open Scope list_scope.

(** Every pixel has a colour in [P]. *)
Definition within {A} (P : A -> Prop) (r : Raster A) : Prop := forall x y, P (r_pixel r x y).

Section Pixels.
Variable P : rgb -> Prop.

Lemma within_set (r : Raster rgb) x y c q : within P r -> P c -> set_pixel r x y c = Val q -> within P q.
Proof.
  intros H Hc E. unfold set_pixel in E. destruct (in_raster r x y); [|discriminate]. injection E as <-.
  intros a b. cbn. destruct (_ && _); auto.
Qed.

Lemma within_bits md x y cw h cf b is : P cf -> forall p xx yy q xx' yy', within P p ->
  render_bits md p x y cw h cf b is xx yy = Val (q, xx', yy') -> within P q.
Proof.
  intros Hc. induction is as [|i is IH]; intros p xx yy q xx' yy' H E; cbn [render_bits] in E.
  - now injection E as <- _ _.
  - apply bind_val in E as (p1 & E1 & E).
    assert (H1 : within P p1).
    { destruct (negb _); [|now injection E1 as <-]. apply bind_val in E1 as (px & _ & E1).
      apply bind_val in E1 as (py & _ & E1). eapply within_set; eauto. }
    repeat match type of E with
           | context [if ?c then _ else _] => destruct c
           | bind _ _ = _ => let H := fresh in apply bind_val in E as (? & H & E)
           end; try (now injection E as <- _ _); eapply IH; eauto.
Qed.


Lemma within_bytes md x y cw h cf bytes : P cf -> forall p xx yy q, within P p ->
  render_bytes md p x y cw h cf bytes xx yy = Val q -> within P q.
Proof.
  intros Hc. induction bytes as [|b bytes IH]; intros p xx yy q H E; cbn [render_bytes] in E; [now injection E as <-|].
  apply bind_val in E as ([[p1 xx1] yy1] & E1 & E). apply within_bits in E1; auto. eapply IH; eauto.
Qed.

Lemma within_text md f text x y cs cf : P cf -> forall p xx q, within P p ->
  render_text_loop md f p text x y cs cf xx = Val (Ok q) -> within P q.
Proof.
  intros Hc. induction text as [|ch text IH]; intros p xx q H E; cbn [render_text_loop] in E; [now injection E as <-|].
  destruct (character f ch) as [c|]; [|discriminate].
  apply bind_val in E as (x1 & _ & E). apply bind_val in E as (px & _ & E). apply bind_val in E as (p1 & E1 & E).
  apply bind_val in E as (x2 & _ & E). unfold render_char in E1. apply within_bytes in E1; auto. eapply IH; eauto.
Qed.

Lemma within_row g ctx ox oy yy xs : (forall x, In x xs -> forall c, pixel_fn g x yy ctx = Val (Some c) -> P c) ->
  forall p q, within P p -> draw_row g ctx (fun c => c) ox oy p yy xs = Val q -> within P q.
Proof.
  induction xs as [|x xs IH]; intros Hc p q H E; cbn [draw_row] in E; [now injection E as <-|].
  apply bind_val in E as (p1 & E1 & E). apply (IH (fun x' I => Hc x' (or_intror I)) p1); auto.
  unfold draw_pixel in E1. apply bind_val in E1 as (o & Eo & E1). destruct o as [c|]; [|now injection E1 as <-].
  apply (within_set p (ox + x) (oy + yy) c p1); auto. apply (Hc x); auto. now left.
Qed.

Lemma in_zrange x n : In x (zrange n) -> 0 <= x < n.
Proof. unfold zrange. intros H. apply in_map_iff in H as (k & <- & H). apply in_seq in H. lia. Qed.

Lemma within_rows g ctx ox oy : (forall x y c, 0 <= x < g_width g -> 0 <= y < g_height g ->
    pixel_fn g x y ctx = Val (Some c) -> P c) ->
  forall ys, (forall y, In y ys -> 0 <= y < g_height g) ->
  forall p q, within P p -> draw_rows g ctx (fun c => c) ox oy p ys = Val q -> within P q.
Proof.
  intros Hc. induction ys as [|y ys IH]; intros Hy p q H E; cbn [draw_rows] in E; [now injection E as <-|].
  apply bind_val in E as (p1 & E1 & E). apply (IH (fun y' I => Hy y' (or_intror I)) p1); auto.
  apply within_row in E1; auto. intros x Ix c. apply Hc; [now apply in_zrange|]. apply Hy. now left.
Qed.

Lemma within_graphic md g p x y ctx q : (forall px py c, 0 <= px < g_width g -> 0 <= py < g_height g ->
    pixel_fn g px py ctx = Val (Some c) -> P c) ->
  within P p -> render_graphic md g p x y ctx = Val (Ok q) -> within P q.
Proof.
  intros Hc H E. unfold render_graphic in E. apply bind_val in E as (u & _ & E). cbv zeta in E.
  destruct (_ || _); [discriminate|]. apply bind_val in E as (p1 & E1 & E). injection E as <-.
  apply within_rows in E1; auto. intros y'. apply in_zrange.
Qed.

Lemma within_rect md p r c v q : P c -> within P p -> render_rect md p r c v = Val (Ok q) -> within P q.
Proof.
  intros Hc H E. unfold render_rect in E. apply bind_val in E as (u & _ & E). cbv zeta in E.
  apply bind_val in E as (i & _ & E). destruct (rect_eqb _ _); [|discriminate]. injection E as <-.
  intros x y. cbn. destruct (_ && _); auto.
Qed.

Lemma within_build rs : P (background_rgb (rs_ctx rs)) -> within P (build_raster rs).
Proof. intros H x y. exact H. Qed.

Lemma within_spans md d all : forall todo p q,
  (forall s, In s todo -> P (foreground_rgb (rs_ctx (span_state s)))) -> within P p ->
  render_spans_loop md d all todo p = Val (Ok q) -> within P q.
Proof.
  induction todo as [|s todo IH]; intros p q Hs H E; cbn [render_spans_loop] in E; [now injection E as <-|].
  apply try_ok in E as (x & _ & E). apply try_ok in E as (y & _ & E). apply try_ok in E as (f & _ & E).
  apply try_ok in E as (p1 & E1 & E). apply (IH p1 q (fun s' I => Hs s' (or_intror I))); auto.
  unfold span_render_text in E1. apply map_err_ok in E1. unfold font_render_text in E1.
  apply within_text in E1; auto. apply Hs. now left.
Qed.

End Pixels.

(** ** The colours of the message *)

Section Message.
Variable d : Dms.
Variable ms : str.
Hypothesis HB : Built d.

Definition chosen (c : Color) : Prop :=
  c = default_fg d \/ c = default_bg d \/ exists v, Says ms v /\ ColorIn v c.

Definition owned (ctx : ColorCtx) : Prop :=
  exists fg bg, ctx = colors d fg bg /\ chosen fg /\ chosen bg.

Lemma says_ok v : Says ms v -> value_ok v.
Proof.
  intros (ts & t & HT & I & HD). apply (parsed_in_range Debug ms). rewrite (values_tokens Debug ms ts HT).
  apply in_map_iff. exists t. split; auto. now apply TokenDenotes_try.
Qed.

Lemma chosen_bytes c : chosen c -> color_bytes c.
Proof.
  destruct (defaults_ok d HB) as [H1 H2].
  intros [->|[->|(v & HV & HC)]]; [now apply color_of_rgb_bytes|now apply color_of_rgb_bytes|].
  apply says_ok in HV. destruct HC; cbn in HV; tauto.
Qed.

Lemma owned_bytes ctx : owned ctx -> ctx_bytes ctx.
Proof. intros (fg & bg & -> & H1 & H2). apply colors_bytes; auto using chosen_bytes. Qed.

Lemma shows_any fg bg c x : Shows (colors d fg bg) c x -> Shows (sign_colors d) c x.
Proof.
  intros HS. destruct HS; [exact (Sw_1_bg (sign_colors d) H)|exact (Sw_1_fg (sign_colors d) H)
    |apply (Sw_8 (sign_colors d)); auto|apply (Sw_classic (sign_colors d)); auto|apply (Sw_24 (sign_colors d)); auto].
Qed.

Lemma shows_chosen fg bg c x : chosen c -> Shows (colors d fg bg) c x -> Source d ms x.
Proof.
  intros Hc HS.
  pose proof (shows_any _ _ _ _ HS) as HD.
  destruct Hc as [->|[->|(v & HV & HC)]].
  - unfold default_fg in HS. destruct (foreground_default_rgb d) as [[r g] b] eqn:E. inversion HS; subst. rewrite <- E. constructor.
  - unfold default_bg in HS. destruct (background_default_rgb d) as [[r g] b] eqn:E. inversion HS; subst. rewrite <- E. constructor.
  - eapply So_tag; eauto.
Qed.

Lemma shows_rgb ctx c x : ctx_bytes ctx -> color_bytes c -> ctx_rgb ctx c = Some x -> Shows ctx c x.
Proof.
  intros (Ho & _) Hc. apply ctx_rgb_iff; auto. destruct c; cbn in Hc; auto.
Qed.

Lemma fg_source ctx : owned ctx -> Source d ms (foreground_rgb ctx).
Proof.
  intros H. pose proof (owned_bytes ctx H) as HY. destruct H as (fg & bg & -> & H1 & H2). unfold foreground_rgb.
  destruct (ctx_rgb _ _) as [x|] eqn:E; [|exact (So_fg d ms)]. apply shows_rgb in E; [|exact HY|now apply chosen_bytes].
  exact (shows_chosen fg bg fg x H1 E).
Qed.

Lemma bg_source ctx : owned ctx -> Source d ms (background_rgb ctx).
Proof.
  intros H. pose proof (owned_bytes ctx H) as HY. destruct H as (fg & bg & -> & H1 & H2). unfold background_rgb.
  destruct (ctx_rgb _ _) as [x|] eqn:E; [|exact (So_bg d ms)]. apply shows_rgb in E; [|exact HY|now apply chosen_bytes].
  exact (shows_chosen fg bg bg x H2 E).
Qed.

Lemma set_fg_owned ctx c v ctx' r : owned ctx -> (forall k, c = Some k -> chosen k) ->
  set_foreground ctx c v = (ctx', r) -> owned ctx'.
Proof.
  intros (fg & bg & -> & H1 & H2) Hc E. unfold set_foreground in E. destruct c as [c|].
  - destruct (ctx_rgb _ _); injection E as <- _; [exists c, bg|exists fg, bg]; auto.
  - injection E as <- _. exists (default_fg d), bg. unfold chosen. auto.
Qed.

Lemma set_bg_owned ctx c v ctx' r : owned ctx -> (forall k, c = Some k -> chosen k) ->
  set_background ctx c v = (ctx', r) -> owned ctx'.
Proof.
  intros (fg & bg & -> & H1 & H2) Hc E. unfold set_background in E. destruct c as [c|].
  - destruct (ctx_rgb _ _); injection E as <- _; [exists fg, c|exists fg, bg]; auto.
  - injection E as <- _. exists fg, (default_bg d). unfold chosen. auto.
Qed.

Lemma pixel_source n pos g ctx px py c : Says ms (VGraphic n pos) -> FirstGraphic (d_graphics d) n g -> owned ctx ->
  0 <= px < g_width g -> 0 <= py < g_height g -> pixel_fn g px py ctx = Val (Some c) -> Source d ms c.
Proof.
  intros HV HF HO Hx Hy E. pose proof (says_ok _ HV) as HN. cbn in HN. destruct HN as [HN _].
  destruct (FirstGraphic_In _ _ _ HF) as [I En].
  pose proof HB as (md & b & Hb & HBD). destruct (build_valid md b d Hb HBD) as (_ & _ & GF & GV & _).
  rewrite Forall_forall in GF. pose proof (GF g I) as Hf.
  destruct (GV g I ltac:(lia)) as (_ & _ & _ & HC & HK).
  destruct (pixel_fn_spec g ctx px py Hf HC HK (owned_bytes _ HO) Hx Hy) as (o & E' & HP).
  rewrite E' in E. injection E as ->. destruct HP as (k & HS & [[_ X]|[HT HD]]); [discriminate|].
  destruct HO as (fg & bg & -> & H1 & H2). destruct HD as [x T D|x T D|v x T D|r v b' T].
  - exact (shows_chosen fg bg fg x H1 D).
  - exact (shows_chosen fg bg bg x H2 D).
  - apply (So_graphic d ms n pos g px py); auto; [destruct T; congruence|]. unfold Inks. splits; try lia.
    exists (Legacy v). splits; auto. apply Dp_8; auto.
    now apply shows_any in D.
  - apply (So_graphic d ms n pos g px py); auto; [congruence|]. unfold Inks. splits; try lia.
    exists (Rgb r v b'). splits; auto. now apply Dp_24.
Qed.

(** ** The machine *)

Definition told (xs : Outcomes) : Prop := forall v, In (Val (Ok v)) xs -> Says ms v.

Lemma told_cons x xs : told (x :: xs) -> told xs.
Proof. intros H v I. apply H. now right. Qed.

Lemma told_suffix a b : suffix a b -> told b -> told a.
Proof. intros HS H v I. apply H. eapply suffix_in; eauto. Qed.

Lemma told_color v c xs : told (Val (Ok v) :: xs) -> ColorIn v c -> chosen c.
Proof. intros H HC. right. right. exists v. split; auto. apply H. now left. Qed.

Lemma update_owned ds xs : told xs -> forall rs rs' u, owned (rs_ctx rs) ->
  update_page_loop ds (bare xs) rs = Val (rs', u) -> owned (rs_ctx rs').
Proof.
  induction xs as [|x xs IH]; intros HT rs rs' u HO H; cbn [bare map update_page_loop] in H; [now injection H as <- _|].
  destruct x as [[v|e]| |]; cbn [bind] in H; try discriminate; [|now injection H as <- _].
  pose proof (told_cons _ _ HT) as HT'.
  destruct v; try (apply IH in H; auto; exact H); try (now injection H as <- _).
  - destruct (set_background _ _ _) as [ctx [o|e]] eqn:E.
    + apply IH in H; auto. cbn. eapply set_bg_owned; eauto. intros k ->. eapply told_color; eauto. constructor.
    + injection H as <- _. cbn. eapply set_bg_owned; eauto. intros k ->. eapply told_color; eauto. constructor.
  - destruct (set_background _ _ _) as [ctx [o|e]] eqn:E.
    + apply IH in H; auto. cbn. eapply set_bg_owned; eauto. intros k ->. eapply told_color; eauto. constructor.
    + injection H as <- _. cbn. eapply set_bg_owned; eauto. intros k ->. eapply told_color; eauto. constructor.
Qed.

Lemma get_graphic_first n id g : get_graphic d n id = Ok g -> FirstGraphic (d_graphics d) n g.
Proof.
  unfold get_graphic. destruct (graphic_lookup (d_graphics d) n) as [k|] eqn:L; [|discriminate].
  destruct id as [z|]; [destruct (_ =? _); [|discriminate]|]; intros [= ->]; now apply FirstGraphic_lookup.
Qed.

Lemma graphics_within md xs : told xs -> forall ctx p q, owned ctx -> within (Source d ms) p ->
  render_graphics_loop md d (bare xs) ctx p = Val (Ok q) -> within (Source d ms) q.
Proof.
  induction xs as [|x xs IH]; intros HT ctx p q HO HW H; cbn [bare map render_graphics_loop] in H; [now injection H as <-|].
  apply try_ok in H as (v & -> & H). pose proof (told_cons _ _ HT) as HT'.
  destruct v; try discriminate; try (now apply (IH HT' ctx p q HO HW) in H); try (now injection H as <-).
  - destruct (set_background _ _ _) as [ctx' r] eqn:E. apply try_ok in H as (u & _ & H).
    apply (IH HT' ctx' p q); auto. eapply set_bg_owned; eauto. intros k ->. eapply told_color; eauto. constructor.
  - destruct (set_foreground _ _ _) as [ctx' r] eqn:E. apply try_ok in H as (u & _ & H).
    apply (IH HT' ctx' p q); auto. eapply set_fg_owned; eauto. intros k ->. eapply told_color; eauto. constructor.
  - destruct (set_foreground _ _ _) as [ctx' r'] eqn:E. apply try_ok in H as (u & _ & H).
    apply try_ok in H as (p1 & E1 & H). apply (IH HT' ctx p1 q); auto.
    apply within_rect with (P := Source d ms) in E1; auto. apply fg_source. eapply set_fg_owned; eauto.
    intros k [= <-]. eapply told_color; eauto. constructor.
  - assert (HS : Says ms (VGraphic n p0)) by (apply HT; now left).
    destruct p0 as [[[x y] id]|].
    + apply try_ok in H as (g & E1 & H). apply try_ok in H as (p1 & E2 & H). apply map_err_ok in E2.
      injection E1 as E1. apply get_graphic_first in E1. apply (IH HT' ctx p1 q); auto.
      apply within_graphic with (P := Source d ms) in E2; auto. intros. eapply pixel_source; eauto.
    + apply try_ok in H as (g & E1 & H). apply try_ok in H as (p1 & E2 & H). apply map_err_ok in E2.
      injection E1 as E1. apply get_graphic_first in E1. apply (IH HT' ctx p1 q); auto.
      apply within_graphic with (P := Source d ms) in E2; auto. intros. eapply pixel_source; eauto.
Qed.

Definition all_owned (l : list Span) : Prop := forall s, In s l -> owned (rs_ctx (span_state s)).

Lemma all_owned_snoc l s : all_owned l -> owned (rs_ctx (span_state s)) -> all_owned (l ++ [s]).
Proof. intros H Hs t I. apply in_app_iff in I as [I|[<-|[]]]; auto. Qed.

Lemma rtr_owned md ds po xs : told xs -> forall rs spans lb e, owned (rs_ctx rs) -> all_owned spans ->
  a_rtr md d ds po xs rs spans lb = Val e -> owned (rs_ctx (a_rs e)) /\ all_owned (a_spans e).
Proof.
  induction xs as [|x xs IH]; intros HT rs spans lb e HO HA H; cbn [a_rtr] in H.
  - injection H as <-. auto.
  - apply bind_val in H as (r & -> & H). pose proof (told_cons _ _ HT) as HT'.
    assert (stop : forall st res, Val (mkA rs st xs spans res) = Val e -> owned (rs_ctx (a_rs e)) /\ all_owned (a_spans e))
      by (intros st res [= <-]; auto).
    destruct r as [v|er]; [|eapply stop; eauto].
    destruct v; try (apply IH in H; auto; fail); try (eapply stop; eauto; fail).
    + destruct (set_foreground _ _ _) as [ctx [u|er]] eqn:E.
      * apply IH in H; auto. cbn. eapply set_fg_owned; eauto. intros k ->. eapply told_color; eauto. constructor.
      * injection H as <-. cbn. split; auto. eapply set_fg_owned; eauto. intros k ->. eapply told_color; eauto. constructor.
    + destruct (is_charb _); [|eapply stop; eauto]. apply bind_val in H as (sn & _ & H).
      apply IH in H; auto. now apply all_owned_snoc.
    + destruct j as [[]|]; try (eapply stop; eauto; fail); apply IH in H; auto.
    + destruct j as [[]|]; try (eapply stop; eauto; fail); (destruct (negb _); apply IH in H; auto).
    + match type of H with (if ?c then _ else _) = _ => destruct c end; [eapply stop; eauto|].
      apply bind_val in H as (ln & _ & H). apply IH in H; auto. destruct lb; auto. now apply all_owned_snoc.
    + destruct (_ && _); [eapply stop; eauto|]. apply IH in H; auto.
    + apply bind_val in H as (sn & _ & H). apply IH in H; auto. now apply all_owned_snoc.
    + apply bind_val in H as (o & _ & H). destruct o; injection H as <-; auto.
Qed.

Lemma loop_owned md fuel : forall n p raster p' r, told (ap_rest p) -> owned (rs_ctx (ap_rs p)) ->
  within (Source d ms) raster -> a_page_loop md d fuel n p raster = Val (p', r) ->
  owned (rs_ctx (ap_rs p')) /\ forall q, r = Ok q -> within (Source d ms) q.
Proof.
  induction fuel as [|f IH]; intros n p raster p' r HT HO HW H; cbn [a_page_loop] in H; [discriminate|].
  destruct (ap_state p) as [[]| |]; try (injection H as <- <-; split; auto; intros q [= <-]; auto; fail).
  apply bind_val in H as (g & HG & H). destruct g as [r1|e]; [|injection H as <- <-; split; auto; discriminate].
  apply graphics_within in HG; auto.
  apply bind_val in H as ([p1 r2] & HX & H). unfold a_text_rect in HX. apply bind_val in HX as (e & HE & HX).
  pose proof (a_rtr_suffix _ _ _ _ _ _ _ _ _ HE) as HS.
  apply rtr_owned in HE as [HO' HA]; auto; [|intros s []].
  assert (E1 : ap_rs p1 = a_rs e /\ ap_rest p1 = a_rest e /\ forall q, r2 = Ok q -> within (Source d ms) q).
  { destruct (a_res e); [|injection HX as <- <-; splits; auto; discriminate].
    apply bind_val in HX as (r3 & HR & HX). injection HX as <- <-. splits; auto. intros q ->.
    unfold render_text_spans in HR. apply try_ok in HR as (u & _ & HR). apply within_spans with (P := Source d ms) in HR; auto.
    intros s I. apply fg_source. now apply HA. }
  destruct E1 as (E1 & E2 & HR).
  destruct r2 as [r2|er]; [|injection H as <- <-; rewrite E1; split; auto; discriminate]. cbv zeta in H.
  destruct (MAX_TEXT_RECTANGLES <? n + 1); [injection H as <- <-; rewrite E1; split; auto; discriminate|].
  apply IH in H; auto; [|now rewrite E1]. rewrite E2. eapply told_suffix; eauto.
Qed.

Lemma next_owned md p o p' : told (ap_rest p) -> owned (rs_ctx (ap_rs p)) -> a_next md d p = Val (o, p') ->
  owned (rs_ctx (ap_rs p')) /\ forall pg, o = Some (Ok pg) -> within (Source d ms) (pg_raster pg).
Proof.
  intros HT HO H. unfold a_next in H. destruct (ap_state p) as [b|b|].
  - apply bind_val in H as ([p1 r] & H & E). injection E as <- <-. cbn [fst snd].
    unfold a_on_page in H. apply bind_val in H as (c & HC & H).
    destruct c as [c|e]; [|injection H as <- <-; split; auto; discriminate].
    apply bind_val in H as ([rs u] & HU & H). unfold update_page_state in HU. apply update_owned in HU; auto.
    destruct u as [u|e]; [|injection H as <- <-; split; auto; discriminate].
    apply bind_val in H as ([p2 r2] & HL & H).
    apply loop_owned in HL as [HO2 HL]; auto; [|apply within_build; now apply bg_source].
    destruct r2 as [r2|e]; injection H as <- <-; split; auto; [|discriminate]. intros pg [= <-]. cbn. now apply HL.
  - injection H as <- <-. cbn [ap_rs]. split; auto. intros pg [= <-]. apply within_build. now apply bg_source.
  - injection H as <- <-. split; auto. discriminate.
Qed.

Lemma take_owned md : forall n p l, told (ap_rest p) -> owned (rs_ctx (ap_rs p)) ->
  a_take md d n p = Val l -> forall pg, In (Ok pg) l -> within (Source d ms) (pg_raster pg).
Proof.
  induction n as [|n IH]; intros p l HT HO H pg HI; cbn [a_take] in H; [now injection H as <-|].
  apply bind_val in H as ([o p'] & HX & H).
  destruct (next_owned _ _ _ _ HT HO HX) as [HO' HP]. pose proof (next_rest _ _ _ _ _ HX) as HS.
  destruct o as [x|]; [|injection H as <-; contradiction].
  apply bind_val in H as (l' & HK & H). injection H as <-. destruct HI as [->|HI]; [now apply HP|].
  apply (IH p' l'); auto. eapply told_suffix; eauto.
Qed.

Lemma colors_of_pages md n l pg x y : pages_take md d n (pages_new d ms) = Val l -> In (Ok pg) l ->
  Source d ms (r_pixel (pg_raster pg) x y).
Proof.
  intros H HI. destruct (Tokens_exists ms) as (ts & HT).
  rewrite (take_start md d n ms _ (Reads_new _ _ HT)) in H.
  refine (take_owned md n (a_start d (map try_from ts)) l _ _ H pg HI x y).
  - intros v I. cbn in I. apply in_map_iff in I as (t & E & I).
    pose proof (Tokens_Token _ _ HT) as HK. rewrite Forall_forall in HK. destruct (HK t I) as (rest & HTk).
    exists ts, t. splits; auto. eapply try_Token; eauto.
  - exists (default_fg d), (default_bg d). unfold chosen. splits; auto.
Qed.

Lemma shows_scheme c x : color_bytes c -> Shows (sign_colors d) c x -> SchemeColor d x.
Proof.
  intros Hc HS. destruct HS as [ES|ES|v b0 b1 b2 f0 f1 f2 ES EB EF|v x ES Hv E|r g b ES]; cbn in *.
  - apply Sc_bg.
  - apply Sc_fg.
  - eapply Sc_level; eauto.
  - apply nth_error_In in E. destruct ES as [ES|ES]; [now apply Sc_classic|]. apply Sc_24; auto.
    clear - E. cbn in E. repeat (destruct E as [<-|E]; [cbn; unfold u8; lia|]). contradiction.
  - apply Sc_24; auto.
Qed.

Lemma source_scheme x : Source d ms x -> SchemeColor d x
  \/ exists n pos g px py r v b, Says ms (VGraphic n pos) /\ FirstGraphic (d_graphics d) n g /\ g_type g = Color24Bit
        /\ Stored g px py (Rgb r v b) /\ g_transparent g <> Some (Rgb r v b) /\ x = (r, v, b).
Proof.
  intros [| |v c x' HV HC HS|n pos g px py x' HV HF HT (_ & _ & k & HS & HN & HD)].
  - left. constructor.
  - left. constructor.
  - left. apply (shows_scheme c); auto. apply chosen_bytes. right. right. eauto.
  - destruct HD as [x1 T D|x1 T D|v x1 T D|r v b T]; try congruence.
    + left. apply (shows_scheme (Legacy v)); auto.
      destruct (FirstGraphic_In _ _ _ HF) as [I _].
      pose proof HB as (md & b & Hb & HBD). destruct (build_valid md b d Hb HBD) as (_ & _ & GF & _).
      rewrite Forall_forall in GF. destruct (GF g I) as (_ & _ & _ & _ & Hf). exact (Stored_bytes g px py _ Hf HS).
    + right. exists n, pos, g, px, py, r, v, b. splits; auto.
Qed.

End Message.
