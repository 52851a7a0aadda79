(** The limit on text rectangles; messages that render without error. *)

From Coq Require Import String.
From Verif Require Import Base Str Multi Color Raster Font Graphic Config Sign Render
  Spec_Multi Spec_Render Proofs_Str Proofs_Split Proofs_Tag Proofs_Norm Proofs_Iter Proofs_Machine Proofs_Pages Proofs_Reach.
Open Scope list_scope.

Definition TM : SyntaxError := SOther (lit "Too many text rectangles").

Section Fine.
Variable X : SyntaxError.
Hypothesis HX : X = TM \/ X = STooManyPages.

(** The computation does not give the error [X]. *)
Definition fine {A} (m : M (result A SyntaxError)) : Prop := m <> Val (Err X).
Ltac nx := first [discriminate | unfold fine; destruct HX as [HX'|HX']; rewrite HX'; discriminate].

Lemma fine_ok {A} (a : A) : fine (Val (Ok a)). Proof. nx. Qed.
Lemma fine_panic {A} : fine (@Panic (result A SyntaxError)). Proof. nx. Qed.
Lemma fine_err {A B} e : fine (@Val (result A SyntaxError) (Err e)) -> fine (@Val (result B SyntaxError) (Err e)).
Proof. unfold fine. congruence. Qed.
#[local] Hint Resolve fine_err : core.
Lemma fine_bind {A B} (m : M A) (k : A -> M (result B SyntaxError)) :
  (forall a, fine (k a)) -> fine (bind m k).
Proof. unfold fine. destruct m; cbn; auto; nx. Qed.
Lemma fine_try {A B} (m : M (result A SyntaxError)) (k : A -> M (result B SyntaxError)) :
  fine m -> (forall a, fine (k a)) -> fine (try m k).
Proof. unfold fine. destruct m as [[]| |]; cbn; eauto; congruence. Qed.
Lemma fine_font {A} (m : M (result A FontError)) : fine (map_err from_font_error m).
Proof.
  unfold fine, map_err. destruct m as [[a|e]| |]; cbn [bind]; try nx. destruct e; nx.
Qed.
Lemma fine_graphic {A} (m : M (result A GraphicError)) : fine (map_err from_graphic_error m).
Proof.
  unfold fine, map_err. destruct m as [[a|e]| |]; cbn [bind]; try nx. destruct e; nx.
Qed.

Ltac fine1 :=
  match goal with
  | |- fine (Val (Ok _)) => apply fine_ok
  | |- fine Panic => apply fine_panic
  | |- fine (Val (Err _)) => nx
  | |- fine (bind _ _) => apply fine_bind; intros
  | |- fine (try _ _) => apply fine_try; [|intros]
  | |- fine (map_err from_font_error _) => apply fine_font
  | |- fine (map_err from_graphic_error _) => apply fine_graphic
  | |- fine (match ?x with _ => _ end) => destruct x
  | |- fine (Val (match ?x with _ => _ end)) => destruct x
  | |- fine (Val _) => unfold fine; nx
  | |- _ => progress cbv zeta
  | |- fine _ => solve [auto]
  end.
Ltac fine := repeat fine1.

Lemma set_bg_fine ctx c v : fine (Val (snd (set_background ctx c v))).
Proof. unfold set_background. destruct c; [destruct (ctx_rgb ctx c)|]; cbn; nx. Qed.
Lemma set_fg_fine ctx c v : fine (Val (snd (set_foreground ctx c v))).
Proof. unfold set_foreground. destruct c; [destruct (ctx_rgb ctx c)|]; cbn; nx. Qed.

Lemma get_font_fine r t : fine (Val (rs_get_font r t)).
Proof. unfold rs_get_font. fine. Qed.
Lemma csf_fine s t : fine (Val (char_spacing_fonts s t)).
Proof.
  unfold char_spacing_fonts. pose proof (get_font_fine (span_state s) t) as H.
  destruct (rs_char_spacing _); [nx|]. destruct (rs_get_font _ _); [nx|eauto].
Qed.
Lemma csb_fine s p t : fine (Val (char_spacing_between s p t)).
Proof.
  unfold char_spacing_between. pose proof (csf_fine s t) as H1. pose proof (csf_fine p t) as H2.
  destruct (rs_char_spacing _); [nx|]. destruct (char_spacing_fonts p t); [|eauto].
  destruct (char_spacing_fonts s t); [nx|eauto].
Qed.
Lemma span_height_fine s t : fine (Val (span_height s t)).
Proof.
  unfold span_height. pose proof (get_font_fine (span_state s) t) as H. destruct (rs_get_font _ _); [nx|eauto].
Qed.
Lemma span_fs_fine s t : fine (Val (span_font_spacing s t)).
Proof.
  unfold span_font_spacing. pose proof (get_font_fine (span_state s) t) as H. destruct (rs_get_font _ _); [nx|eauto].
Qed.
Lemma collect_fine t spans : forall lines, fine (Val (collect_lines t spans lines)).
Proof.
  induction spans as [|s spans IH]; intros lines; cbn [collect_lines]; [nx|].
  pose proof (span_height_fine s t) as H1. pose proof (span_fs_fine s t) as H2.
  destruct (span_height s t); [|eauto]. destruct (span_font_spacing s t); [|eauto].
  cbv zeta. destruct (_ <=? _); auto.
Qed.
Lemma span_width_fine md s t : fine (span_width md s t).
Proof. unfold span_width. fine; [apply get_font_fine|apply csf_fine]. Qed.
Lemma ohl_fine md t rs spans : forall prev b a, fine (offset_horiz_loop md t rs spans prev b a).
Proof.
  induction spans as [|s spans IH]; intros; cbn [offset_horiz_loop]; fine; auto using csb_fine, span_width_fine.
Qed.
Lemma offset_horiz_fine md d spans s : fine (offset_horiz md d spans s).
Proof. unfold offset_horiz. fine; auto using ohl_fine. Qed.
Lemma offset_vert_fine md d spans s : fine (offset_vert md d spans s).
Proof. unfold offset_vert. fine; auto using collect_fine. Qed.
Lemma span_x_fine md d spans s : fine (span_x md d spans s).
Proof. unfold span_x, span_x_left, span_x_center, span_x_right. fine; auto using offset_horiz_fine. Qed.
Lemma span_y_fine md d spans s : fine (span_y md d spans s).
Proof.
  unfold span_y, baseline, baseline_top, baseline_middle, baseline_bottom.
  fine; auto using offset_vert_fine, span_height_fine.
Qed.
Lemma cjl_fine spans : forall a b c, fine (Val (check_just_loop spans a b c)).
Proof. induction spans; intros; cbn [check_just_loop]; [nx|]. cbv zeta. destruct (_ || _); auto. nx. Qed.
Lemma text_spans_fine md d spans r : fine (render_text_spans md d spans r).
Proof.
  unfold render_text_spans. apply fine_try; [apply cjl_fine|intros _].
  generalize spans at 1 as all. intros all. revert r. induction spans as [|s spans IH]; intros r; cbn [render_spans_loop].
  - nx.
  - unfold span_render_text. fine; auto using span_x_fine, span_y_fine, get_font_fine.
Qed.

(** Pieces whose own errors are of another kind. *)
Definition fine_all (xs : Outcomes) : Prop := Forall fine xs.

Lemma reads_fine m xs : Reads m xs -> fine_all xs.
Proof.
  intros (ts & (a & b & Hs & Ho & HT) & ->). clear Hs Ho.
  apply Tokens_Token in HT. apply Forall_forall. intros x Hx.
  apply in_map_iff in Hx as (t & <- & Ht). rewrite Forall_forall in HT.
  destruct (HT t Ht) as (rest & HTk).
  destruct (try_from_token t rest HTk) as [[_ E]|[_ (res & E & Hd)]]; rewrite E; [nx|].
  inversion Hd; subst; nx.
Qed.

Lemma fine_suffix a b : suffix a b -> fine_all b -> fine_all a.
Proof. intros [u ->] H. apply Forall_app in H. tauto. Qed.

Lemma check_fine d xs : fine_all xs -> fine (check_unsupported d (bare xs)).
Proof. induction 1 as [|x xs Hx H IH]; cbn [bare map check_unsupported]; fine; auto. Qed.

Lemma graphics_fine md d xs : fine_all xs -> forall ctx r, fine (render_graphics_loop md d (bare xs) ctx r).
Proof.
  induction 1 as [|x xs Hx H IH]; intros ctx r; cbn [bare map render_graphics_loop]; [nx|].
  apply fine_try; auto. intros v. destruct v; try (apply fine_ok); try apply fine_panic; auto.
  - pose proof (set_bg_fine ctx c (VColorBackground c)) as HB. destruct (set_background _ _ _) as [c' o].
    apply fine_try; [exact HB|intros; apply IH].
  - pose proof (set_fg_fine ctx c (VColorForeground c)) as HB. destruct (set_foreground _ _ _) as [c' o].
    apply fine_try; [exact HB|intros; apply IH].
  - pose proof (set_fg_fine ctx (Some c) (VColorRectangle r0 c)) as HB. destruct (set_foreground _ _ _) as [c' o].
    apply fine_try; [exact HB|intros u]. apply fine_try; [unfold render_rect; fine|]. intros; apply IH.
  - destruct p as [[[x0 y0] gid]|]; (apply fine_try; [unfold get_graphic; fine|]; intros;
      apply fine_try; [apply fine_graphic|intros; apply IH]).
Qed.

Lemma update_fine ds xs : fine_all xs -> forall rs rs' , update_page_loop ds (bare xs) rs <> Val (rs', Err X).
Proof.
  induction 1 as [|x xs Hx H IH]; intros rs rs'; cbn [bare map update_page_loop]; [nx|].
  destruct x as [[v|e]| |]; cbn [bind]; try nx.
  2:{ intros [= _ ->]. now apply Hx. }
  destruct v; try apply IH; try nx.
  - pose proof (set_bg_fine (rs_ctx rs) c (VColorBackground c)) as HB. destruct (set_background _ _ _) as [c' [o|e]].
    + apply IH.
    + intros [= _ ->]. now apply HB.
  - pose proof (set_bg_fine (rs_ctx rs) c (VPageBackground c)) as HB. destruct (set_background _ _ _) as [c' [o|e]].
    + apply IH.
    + intros [= _ ->]. now apply HB.
Qed.

Lemma rtr_fine md d ds po xs : fine_all xs -> forall rs spans lb e,
  a_rtr md d ds po xs rs spans lb = Val e -> a_res e <> Err X.
Proof.
  induction 1 as [|x xs Hx HF IH]; intros rs spans lb e H; cbn [a_rtr] in H.
  { injection H as <-. nx. }
  destruct x as [[v|er]| |]; cbn [bind] in H; try nx.
  2:{ injection H as <-. cbn. intros [= ->]. now apply Hx. }
  destruct v; try (apply IH in H; exact H); try (injection H as <-; nx).
  - pose proof (set_fg_fine (rs_ctx rs) c (VColorForeground c)) as HB.
    destruct (set_foreground _ _ _) as [ctx [u|er]]; [apply IH in H; exact H|].
    injection H as <-. cbn. intros [= ->]. now apply HB.
  - destruct (is_charb c); [|injection H as <-; nx].
    destruct (chk8 md (rs_span rs + 1)) as [sn| |]; cbn [bind] in H; try nx. apply IH in H; exact H.
  - destruct j as [[]|]; try (injection H as <-; nx); apply IH in H; exact H.
  - destruct j as [[]|]; try (injection H as <-; nx); cbv zeta in H; destruct (negb _); apply IH in H; exact H.
  - cbv zeta in H. match type of H with (if ?c then _ else _) = _ => destruct c end; [injection H as <-; nx|].
    cbn [rs_line set_line_spacing] in H.
    destruct (chk8 md (rs_line rs + 1)) as [ln| |]; cbn [bind] in H; try nx. apply IH in H; exact H.
  - destruct (_ && _); [injection H as <-; nx|apply IH in H; exact H].
  - destruct (chk8 md (rs_span rs + 1)) as [sn| |]; cbn [bind] in H; try nx. apply IH in H; exact H.
  - destruct (update_text_rectangle md d ds r) as [[q|]| |] eqn:EU; cbn [bind] in H; try nx;
      injection H as <-; nx.
Qed.

End Fine.

(** That error is only given after 50 text rectangles. *)
Lemma page_loop_many md d fuel : forall n p raster p',
  fine_all TM (ap_rest p) -> ap_state p = PsOn false -> n <= 50 ->
  a_page_loop md d fuel n p raster = Val (p', Err TM) ->
  exists vs tail, ap_rest p = okv vs ++ tail /\ no_page_break vs /\ n + Z.of_nat (text_rects vs) >= 50.
Proof.
  induction fuel as [|f IH]; intros n p raster p' HF Hs Hn H; cbn [a_page_loop] in H; [discriminate|].
  rewrite Hs in H. apply bind_val in H as (g & HG & H). destruct g as [r1|e].
  2:{ injection H as _ ->. now apply (graphics_fine TM (or_introl eq_refl)) in HG. }
  apply bind_val in H as ([p1 r2] & HT & H). unfold a_text_rect in HT. apply bind_val in HT as (e & HE & HT).
  pose proof (rtr_fine TM (or_introl eq_refl) _ _ _ _ _ HF _ _ _ _ HE) as HNE. pose proof (a_rtr_suffix _ _ _ _ _ _ _ _ _ HE) as HSf.
  destruct (a_rtr_ok _ _ _ _ _ _ _ _ _ HE) as [_ HOK].
  destruct (a_res e) as [[]|er] eqn:ER.
  2:{ injection HT as <- <-. injection H as _ ->. congruence. }
  apply bind_val in HT as (r3 & HR & HT). injection HT as <- ->.
  destruct r2 as [r2|er]; [|injection H as _ ->; now apply (text_spans_fine TM (or_introl eq_refl)) in HR].
  cbv zeta in H. change MAX_TEXT_RECTANGLES with 50 in H. specialize (HOK eq_refl).
  destruct HOK as [vs e Hx Hi HR1 HS1 HR2|vs e Hx Hi HS1 HR2|vs r q e Hx Hi HS1 HU HR2].
  - destruct (Z.ltb_spec 50 (n + 1)).
    + exists vs, []. rewrite app_nil_r. splits; auto; [now apply inner_np|lia].
    + destruct f; [discriminate|]. rewrite a_page_loop_stop in H; [discriminate|]. cbn. rewrite HS1. apply done_on.
  - destruct (Z.ltb_spec 50 (n + 1)).
    + exists vs, (Val (Ok VNewPage) :: a_rest e). splits; auto; [now apply inner_np|lia].
    + destruct f; [discriminate|]. rewrite a_page_loop_stop in H; [discriminate|]. cbn. rewrite HS1. apply new_page_on.
  - destruct (Z.ltb_spec 50 (n + 1)).
    + exists vs, (Val (Ok (VTextRectangle r)) :: a_rest e). splits; auto; [now apply inner_np|lia].
    + apply IH in H; [|exact (fine_suffix TM (or_introl eq_refl) (a_rest e) _ HSf HF)|exact HS1|lia].
      destruct H as (vs' & tail & Hx' & Hn' & Hc). cbn [ap_rest] in Hx'.
      exists (vs ++ VTextRectangle r :: vs'), tail. splits.
      * rewrite Hx, Hx', okv_app, <- app_assoc. reflexivity.
      * intros HI. apply in_app_or in HI as [HI|[HI|HI]]; [now apply (inner_np vs Hi)|discriminate|auto].
      * rewrite text_rects_app. cbn [text_rects]. lia.
Qed.

Lemma on_page_many md d p p' : fine_all TM (ap_rest p) ->
  a_on_page md d p = Val (p', Err TM) ->
  exists vs tail, ap_rest p = okv vs ++ tail /\ no_page_break vs /\ (50 <= text_rects vs)%nat.
Proof.
  intros HF H. unfold a_on_page in H. apply bind_val in H as (c & HC & H). destruct c as [c|e].
  2:{ injection H as _ ->. now apply (check_fine TM (or_introl eq_refl)) in HC. }
  apply bind_val in H as ([rs u] & HU & H). destruct u as [u|e].
  2:{ injection H as _ ->. now apply (update_fine TM (or_introl eq_refl)) in HU. }
  apply bind_val in H as ([p1 r] & HL & H). destruct r as [r|e]; [discriminate|]. injection H as -> ->.
  apply page_loop_many in HL; auto; [|lia]. cbn [ap_rest] in HL.
  destruct HL as (vs & tail & H1 & H2 & H3). exists vs, tail. splits; auto. lia.
Qed.

(** ** Messages that render without error consist of values *)

Lemma take_ok_values md d : forall n p ps,
  a_take md d n p = Val (map Ok ps) -> (List.length ps < n)%nat ->
  (ap_state p = PsDone \/ ap_state p = PsOff false \/ exists vs, ap_rest p = okv vs).
Proof.
  induction n as [|n IH]; intros p ps H HL; [lia|]. cbn [a_take] in H.
  destruct (ap_state p) as [b|[]|] eqn:ES; auto; right; right.
  - apply bind_val in H as ([o p'] & HX & H). unfold a_next in HX. rewrite ES in HX.
    apply bind_val in HX as ([p1 r] & HP & HX). cbn [fst snd] in HX. injection HX as <- <-.
    apply bind_val in H as (l & HT & H). injection H as H. destruct ps as [|P ps]; [discriminate|].
    cbn [map] in H. injection H as -> ->. cbn [List.length] in HL.
    apply on_page_ok in HP as (vs & tail & Hx & Hn & _ & HTl & _ & _ & [_ _ _ PE] & _).
    destruct PE as [(E & _)|(E & E')]; [eauto|].
    destruct (IH _ _ HT ltac:(lia)) as [HD|[HD|(vs' & E2)]].
    + rewrite HD in E'. destruct (0 <? _); discriminate.
    + rewrite HD in E'. destruct (0 <? _); discriminate.
    + exists (vs ++ VNewPage :: vs'). rewrite E, E2, okv_app. reflexivity.
  - apply bind_val in H as ([o p'] & HX & H). unfold a_next in HX. rewrite ES in HX. injection HX as <- <-.
    apply bind_val in H as (l & HT & H). injection H as H. destruct ps as [|P ps]; [discriminate|].
    cbn [map] in H. injection H as _ ->. cbn [List.length] in HL.
    destruct (IH _ _ HT ltac:(lia)) as [HD|[HD|HV]]; [discriminate|discriminate|exact HV].
Qed.

Lemma ok_meaning ms ts vs : Tokens ms ts -> map try_from ts = okv vs -> Meaning ms (map Ok vs).
Proof.
  intros HT H. exists ts. split; auto. apply Tokens_Token in HT.
  revert vs H. induction HT as [|t ts [rest HTk] HT IH]; intros [|v vs] H; try discriminate; constructor.
  - cbn in H. injection H as H _. destruct (try_from_token t rest HTk) as [[_ E]|[_ (res & E & Hd)]]; rewrite E in H.
    + discriminate.
    + injection H as ->. exact Hd.
  - apply IH. now injection H.
Qed.

Lemma yields_meaning md d ms ps : Yields md d ms (map Ok ps) -> exists vs, Meaning ms (map Ok vs).
Proof.
  intros (n & H & HL). destruct (Tokens_exists ms) as (ts & HT).
  rewrite (take_start md d n ms _ (Reads_new _ _ HT)) in H. rewrite map_length in HL.
  apply take_ok_values in H; auto. destruct H as [H|[H|(vs & H)]]; try discriminate.
  exists vs. eapply ok_meaning; eauto.
Qed.

(** ** No rendering reports too many pages *)

Definition few {A} (m : M (result A SyntaxError)) : Prop := m <> Val (Err STooManyPages).

Lemma few_page_loop md d fuel : forall n p raster p',
  fine_all STooManyPages (ap_rest p) ->
  a_page_loop md d fuel n p raster <> Val (p', Err STooManyPages).
Proof.
  pose (HX := or_intror eq_refl : STooManyPages = TM \/ STooManyPages = STooManyPages).
  induction fuel as [|f IH]; intros n p raster p' HF H; cbn [a_page_loop] in H; [discriminate|].
  destruct (ap_state p) as [[]| |]; try discriminate.
  apply bind_val in H as (g & HG & H). destruct g as [r1|e].
  2:{ injection H as _ ->. now apply (graphics_fine _ HX) in HG. }
  apply bind_val in H as ([p1 r2] & HT & H). unfold a_text_rect in HT. apply bind_val in HT as (e & HE & HT).
  pose proof (rtr_fine _ HX _ _ _ _ _ HF _ _ _ _ HE) as HNE. pose proof (a_rtr_suffix _ _ _ _ _ _ _ _ _ HE) as HSf.
  destruct (a_res e) as [[]|er] eqn:ER.
  2:{ injection HT as <- <-. injection H as _ ->. congruence. }
  apply bind_val in HT as (r3 & HR & HT). injection HT as <- ->.
  destruct r2 as [r2|er]; [|injection H as _ ->; now apply (text_spans_fine _ HX) in HR].
  cbv zeta in H. destruct (MAX_TEXT_RECTANGLES <? n + 1); [discriminate|]. apply IH in H; auto.
  exact (fine_suffix _ HX (a_rest e) _ HSf HF).
Qed.

Lemma few_next md d p p' : fine_all STooManyPages (ap_rest p) ->
  a_next md d p <> Val (Some (Err STooManyPages), p').
Proof.
  pose (HX := or_intror eq_refl : STooManyPages = TM \/ STooManyPages = STooManyPages).
  intros HF H. unfold a_next in H. destruct (ap_state p); try discriminate.
  apply bind_val in H as ([q r] & H & E). injection E as -> <-. unfold a_on_page in H.
  apply bind_val in H as (c & HC & H). destruct c as [c|e].
  2:{ injection H as _ ->. now apply (check_fine _ HX) in HC. }
  apply bind_val in H as ([rs u] & HU & H). destruct u as [u|e].
  2:{ injection H as _ ->. now apply (update_fine _ HX) in HU. }
  apply bind_val in H as ([p1 r] & HL & H). destruct r as [r|e]; [discriminate|]. injection H as -> ->.
  now apply few_page_loop in HL.
Qed.
