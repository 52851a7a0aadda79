(** Pages: consumption of values, page sequence, sizes and errors. *)

From Coq Require Import String.
From Verif Require Import Base Str Multi Color Raster Font Graphic Config Sign Render
  Spec_Multi Spec_Render Proofs_Str Proofs_Iter Proofs_Machine.
Open Scope list_scope.

Definition okv (vs : list Value) : Outcomes := map (fun v => Val (Ok v)) vs.

Lemma okv_app a b : okv (a ++ b) = okv a ++ okv b.
Proof. apply map_app. Qed.
Lemma okv_map vs : okv vs = map Val (map Ok vs).
Proof. unfold okv. rewrite map_map. reflexivity. Qed.
Lemma okv_inj a b : okv a = okv b -> a = b.
Proof.
  revert b. induction a as [|x a IH]; intros [|y b] H; try discriminate; auto.
  injection H as -> H. f_equal; auto.
Qed.

(** Values that neither end the page nor the text rectangle. *)
Definition inner (v : Value) : Prop :=
  match v with VNewPage | VTextRectangle _ => False | _ => True end.

(** The parts of the state that reading text leaves alone. *)
Definition same_page (a b : RenderState) : Prop :=
  rs_on_time a = rs_on_time b /\ rs_off_time a = rs_off_time b
  /\ color_scheme (rs_ctx a) = color_scheme (rs_ctx b)
  /\ fg_default (rs_ctx a) = fg_default (rs_ctx b)
  /\ bg_default (rs_ctx a) = bg_default (rs_ctx b)
  /\ bg_current (rs_ctx a) = bg_current (rs_ctx b).

Lemma same_page_refl a : same_page a a.
Proof. unfold same_page. splits; auto. Qed.
Lemma same_page_trans a b c : same_page a b -> same_page b c -> same_page a c.
Proof.
  unfold same_page. intros (H1 & H2 & H3 & H4 & H5 & H6) (K1 & K2 & K3 & K4 & K5 & K6).
  splits; congruence.
Qed.

Lemma set_foreground_frame ctx c v : let ctx' := fst (set_foreground ctx c v) in
  color_scheme ctx' = color_scheme ctx /\ fg_default ctx' = fg_default ctx
  /\ bg_default ctx' = bg_default ctx /\ bg_current ctx' = bg_current ctx.
Proof. unfold set_foreground. destruct c as [c|]; [destruct (ctx_rgb ctx c)|]; cbn; auto. Qed.

Lemma set_background_frame ctx c v : let ctx' := fst (set_background ctx c v) in
  color_scheme ctx' = color_scheme ctx /\ fg_default ctx' = fg_default ctx
  /\ bg_default ctx' = bg_default ctx /\ fg_current ctx' = fg_current ctx.
Proof. unfold set_background. destruct c as [c|]; [destruct (ctx_rgb ctx c)|]; cbn; auto. Qed.

(** How the text loop ends well. *)
Inductive RtrOk (md : mode) (d : Dms) (ds : RenderState) (po : bool) (xs : Outcomes)
    (rs : RenderState) : AEnd -> Prop :=
| Ro_end vs e : xs = okv vs -> Forall inner vs -> a_rest e = [] -> a_state e = done po ->
    rs_rect (a_rs e) = rs_rect rs -> RtrOk md d ds po xs rs e
| Ro_page vs e : xs = okv vs ++ Val (Ok VNewPage) :: a_rest e -> Forall inner vs ->
    a_state e = new_page po -> rs_rect (a_rs e) = rs_rect rs -> RtrOk md d ds po xs rs e
| Ro_rect vs r q e : xs = okv vs ++ Val (Ok (VTextRectangle r)) :: a_rest e -> Forall inner vs ->
    a_state e = PsOn false -> update_text_rectangle md d ds r = Val (Some q) ->
    rs_rect (a_rs e) = q -> RtrOk md d ds po xs rs e.

Lemma RtrOk_cons md d ds po v xs rs rs' e :
  inner v -> rs_rect rs' = rs_rect rs -> RtrOk md d ds po xs rs' e ->
  RtrOk md d ds po (Val (Ok v) :: xs) rs e.
Proof.
  intros Hv Hr [vs e' -> Hi H1 H2 H3|vs e' -> Hi H1 H2|vs r q e' -> Hi H1 H2 H3].
  - apply Ro_end with (vs := v :: vs); auto. congruence.
  - apply Ro_page with (vs := v :: vs); auto. congruence.
  - apply Ro_rect with (vs := v :: vs) (r := r) (q := q); auto.
Qed.

Ltac same := unfold same_page; cbn; splits; auto.

Lemma a_rtr_ok md d ds po xs : forall rs spans lb e,
  a_rtr md d ds po xs rs spans lb = Val e ->
  same_page rs (a_rs e) /\ (a_res e = Ok tt -> RtrOk md d ds po xs rs e).
Proof.
  induction xs as [|x xs IH]; intros rs spans lb e H; cbn [a_rtr] in H.
  { injection H as <-. cbn. split; [apply same_page_refl|]. intros _.
    apply Ro_end with (vs := []); auto. }
  destruct x as [[v|er]| |]; cbn [bind] in H; try discriminate.
  2:{ injection H as <-. cbn. split; [apply same_page_refl|discriminate]. }
  assert (HS : forall rs', same_page rs rs' -> rs_rect rs' = rs_rect rs -> forall sp b, inner v ->
             a_rtr md d ds po xs rs' sp b = Val e ->
             same_page rs (a_rs e) /\ (a_res e = Ok tt -> RtrOk md d ds po (Val (Ok v) :: xs) rs e)).
  { intros rs' Hs Hr sp b Hv HE. destruct (IH _ _ _ _ HE) as [H1 H2]. split.
    - eapply same_page_trans; eauto.
    - intros Ho. eapply RtrOk_cons; eauto. }
  assert (HB : forall er, Val (mkA rs (done po) xs spans (Err er)) = Val e ->
             same_page rs (a_rs e) /\ (a_res e = Ok tt -> RtrOk md d ds po (Val (Ok v) :: xs) rs e)).
  { intros er E. injection E as <-. cbn. split; [apply same_page_refl|discriminate]. }
  destruct v; try (apply HS in H; [exact H|same|reflexivity|exact I]).
  - pose proof (set_foreground_frame (rs_ctx rs) c (VColorForeground c)) as HF.
    destruct (set_foreground _ _ _) as [ctx [u|er]]; cbn [fst] in HF; destruct HF as (F1 & F2 & F3 & F4).
    + eapply HS; [| | |exact H]; [same|reflexivity|exact I].
    + injection H as <-. cbn. split; [same|discriminate].
  - destruct (is_charb c); [|now apply HB in H].
    destruct (chk8 md (rs_span rs + 1)) as [sn| |]; cbn [bind] in H; try discriminate.
    eapply HS; [| | |exact H]; [same|reflexivity|exact I].
  - destruct j as [[]|]; try (now apply HB in H); (eapply HS; [| | |exact H]; [same|reflexivity|exact I]).
  - destruct j as [[]|]; try (now apply HB in H); cbv zeta in H;
      (destruct (negb _); (eapply HS; [| | |exact H]; [same|reflexivity|exact I])).
  - cbv zeta in H. match type of H with (if ?c then _ else _) = _ => destruct c end; [now apply HB in H|].
    cbn [rs_line set_line_spacing] in H.
    destruct (chk8 md (rs_line rs + 1)) as [ln| |]; cbn [bind] in H; try discriminate.
    eapply HS; [| | |exact H]; [same|reflexivity|exact I].
  - injection H as <-. cbn. split; [apply same_page_refl|]. intros _.
    apply Ro_page with (vs := []); auto.
  - destruct (_ && _); [now apply HB in H|]. eapply HS; [| | |exact H]; [same|reflexivity|exact I].
  - destruct (chk8 md (rs_span rs + 1)) as [sn| |]; cbn [bind] in H; try discriminate.
    eapply HS; [| | |exact H]; [same|reflexivity|exact I].
  - destruct (update_text_rectangle md d ds r) as [[q|]| |] eqn:EU; cbn [bind] in H; try discriminate;
      injection H as <-; cbn.
    + split; [same|]. intros _. apply Ro_rect with (vs := []) (r := r) (q := q); auto.
    + split; [apply same_page_refl|discriminate].
Qed.

(** Progress of the text loop, whatever its result. *)
Lemma a_rtr_progress md d ds po xs : forall rs spans lb e,
  a_rtr md d ds po xs rs spans lb = Val e ->
  a_state e = done po \/
  ((a_state e = new_page po \/ a_state e = PsOn false) /\ (List.length (a_rest e) < List.length xs)%nat).
Proof.
  induction xs as [|x xs IH]; intros rs spans lb e H; cbn [a_rtr] in H.
  { injection H as <-. cbn. auto. }
  destruct x as [[v|er]| |]; cbn [bind] in H; try discriminate.
  2:{ injection H as <-. cbn. auto. }
  assert (HS : forall rs' sp b, a_rtr md d ds po xs rs' sp b = Val e ->
     a_state e = done po \/
     ((a_state e = new_page po \/ a_state e = PsOn false)
      /\ (List.length (a_rest e) < List.length (@Val (result Value SyntaxError) (Ok v) :: xs))%nat)).
  { intros rs' sp b HE. destruct (IH _ _ _ _ HE) as [?|[? ?]]; [auto|right; split; auto].
    cbn. lia. }
  assert (HB : forall rs' er, Val (mkA rs' (done po) xs spans (Err er)) = Val e ->
     a_state e = done po \/
     ((a_state e = new_page po \/ a_state e = PsOn false)
      /\ (List.length (a_rest e) < List.length (@Val (result Value SyntaxError) (Ok v) :: xs))%nat)).
  { intros rs' er E. injection E as <-. cbn. auto. }
  destruct v; try (eapply HS; exact H).
  - destruct (set_foreground _ _ _) as [ctx [u|er]]; [eapply HS|eapply HB]; exact H.
  - destruct (is_charb c); [|eapply HB; exact H].
    destruct (chk8 md (rs_span rs + 1)) as [sn| |]; cbn [bind] in H; try discriminate. eapply HS; exact H.
  - destruct j as [[]|]; try (eapply HB; exact H); eapply HS; exact H.
  - destruct j as [[]|]; try (eapply HB; exact H); cbv zeta in H; destruct (negb _); eapply HS; exact H.
  - cbv zeta in H. match type of H with (if ?c then _ else _) = _ => destruct c end; [eapply HB; exact H|].
    cbn [rs_line set_line_spacing] in H.
    destruct (chk8 md (rs_line rs + 1)) as [ln| |]; cbn [bind] in H; try discriminate. eapply HS; exact H.
  - injection H as <-. cbn. right. split; auto.
  - destruct (_ && _); [eapply HB|eapply HS]; exact H.
  - destruct (chk8 md (rs_span rs + 1)) as [sn| |]; cbn [bind] in H; try discriminate. eapply HS; exact H.
  - destruct (update_text_rectangle md d ds r) as [[q|]| |] eqn:EU; cbn [bind] in H; try discriminate;
      injection H as <-; cbn; right; split; auto; lia.
Qed.

(** ** Sizes *)

Definition same_size {P} (a b : Raster P) : Prop := r_width a = r_width b /\ r_height a = r_height b.

Lemma same_size_refl {P} (a : Raster P) : same_size a a.
Proof. split; auto. Qed.
Lemma same_size_trans {P} (a b c : Raster P) : same_size a b -> same_size b c -> same_size a c.
Proof. intros [] []. split; congruence. Qed.

Lemma set_pixel_size {P} (r : Raster P) x y c r' : set_pixel r x y c = Val r' -> same_size r r'.
Proof. unfold set_pixel. destruct (in_raster r x y); [|discriminate]. intros [= <-]. split; auto. Qed.

Lemma render_bits_size md x y w h cf b bis : forall page xx yy p xx' yy',
  render_bits md page x y w h cf b bis xx yy = Val (p, xx', yy') -> same_size page p.
Proof.
  induction bis as [|bi bis IH]; intros page xx yy p xx' yy' H; cbn [render_bits] in H.
  { injection H as <- _ _. apply same_size_refl. }
  match type of H with bind ?m _ = _ => destruct m as [q| |] eqn:E end; cbn [bind] in H; try discriminate.
  assert (same_size page q) as HS.
  { destruct (negb _); [|injection E as <-; apply same_size_refl].
    destruct (chk_i32 md (x + xx)); cbn [bind] in E; try discriminate.
    destruct (chk_i32 md (y + yy)); cbn [bind] in E; try discriminate. eapply set_pixel_size; eauto. }
  cbv zeta in H. destruct (w <=? xx + 1).
  - destruct (chk_i32 md (yy + 1)) as [yy1| |]; cbn [bind] in H; try discriminate. destruct (h <=? yy1).
    + injection H as <- _ _. auto.
    + eapply same_size_trans; eauto.
  - eapply same_size_trans; eauto.
Qed.

Lemma render_bytes_size md x y w h cf bs : forall page xx yy p,
  render_bytes md page x y w h cf bs xx yy = Val p -> same_size page p.
Proof.
  induction bs as [|b bs IH]; intros page xx yy p H; cbn [render_bytes] in H.
  { injection H as <-. apply same_size_refl. }
  destruct (render_bits _ _ _ _ _ _ _ _ _ _ _) as [[[q xx'] yy']| |] eqn:E; cbn [bind] in H; try discriminate.
  eapply same_size_trans; [eapply render_bits_size; eauto|eauto].
Qed.

Lemma render_text_loop_size md f cs cf x y t : forall page xx p,
  render_text_loop md f page t x y cs cf xx = Val (Ok p) -> same_size page p.
Proof.
  induction t as [|c t IH]; intros page xx p H; cbn [render_text_loop] in H.
  { injection H as <-. apply same_size_refl. }
  destruct (character f c); [|discriminate].
  destruct (if 0 <? xx then _ else _); cbn [bind] in H; try discriminate.
  destruct (chk_i32 md _); cbn [bind] in H; try discriminate.
  destruct (render_char _ _ _ _ _ _ _) eqn:E; cbn [bind] in H; try discriminate.
  destruct (chk_i32 md _); cbn [bind] in H; try discriminate.
  eapply same_size_trans; [eapply render_bytes_size; exact E|eauto].
Qed.

Lemma draw_row_size {P} g ctx (conv : rgb -> P) ox oy yy xs : forall page p,
  draw_row g ctx conv ox oy page yy xs = Val p -> same_size page p.
Proof.
  induction xs as [|xx xs IH]; intros page p H; cbn [draw_row] in H.
  { injection H as <-. apply same_size_refl. }
  destruct (draw_pixel g ctx conv ox oy page xx yy) eqn:E; cbn [bind] in H; try discriminate.
  eapply same_size_trans; [|eauto]. unfold draw_pixel in E.
  destruct (pixel_fn g xx yy ctx) as [[c|]| |]; cbn [bind] in E; try discriminate.
  - eapply set_pixel_size; eauto.
  - injection E as <-. apply same_size_refl.
Qed.

Lemma draw_rows_size {P} g ctx (conv : rgb -> P) ox oy ys : forall page p,
  draw_rows g ctx conv ox oy page ys = Val p -> same_size page p.
Proof.
  induction ys as [|yy ys IH]; intros page p H; cbn [draw_rows] in H.
  { injection H as <-. apply same_size_refl. }
  destruct (draw_row _ _ _ _ _ _ _ _) eqn:E; cbn [bind] in H; try discriminate.
  eapply same_size_trans; [eapply draw_row_size; eauto|eauto].
Qed.

Lemma map_err_ok {A E F} (g : E -> F) (m : M (result A E)) a :
  map_err g m = Val (Ok a) -> m = Val (Ok a).
Proof. destruct m as [[b|e]| |]; cbn; try discriminate. congruence. Qed.

Lemma render_graphic_size md g page x y ctx p :
  render_graphic md g page x y ctx = Val (Ok p) -> same_size page p.
Proof.
  unfold render_graphic. match goal with |- bind ?m _ = _ -> _ => destruct m end; cbn [bind]; try discriminate.
  cbv zeta. destruct (_ || _); [discriminate|].
  destruct (draw_rows _ _ _ _ _ _ _) eqn:E; cbn [bind]; try discriminate. intros [= <-].
  eapply draw_rows_size; eauto.
Qed.

Lemma render_rect_size md raster r c v p : render_rect md raster r c v = Val (Ok p) -> same_size raster p.
Proof.
  unfold render_rect. match goal with |- bind ?m _ = _ -> _ => destruct m end; cbn [bind]; try discriminate.
  cbv zeta. destruct (intersection _ _ _); cbn [bind]; try discriminate.
  destruct (rect_eqb _ _); [|discriminate]. intros [= <-]. split; reflexivity.
Qed.

Lemma try_ok {A B E} (m : M (result A E)) (k : A -> M (result B E)) b :
  try m k = Val (Ok b) -> exists a, m = Val (Ok a) /\ k a = Val (Ok b).
Proof. destruct m as [[a|e]| |]; cbn [try]; try discriminate. eauto. Qed.

Lemma bind_val {A B} (m : M A) (k : A -> M B) b : bind m k = Val b -> exists a, m = Val a /\ k a = Val b.
Proof. destruct m; cbn [bind]; try discriminate. eauto. Qed.

Lemma graphics_size md d vs : forall ctx r p,
  render_graphics_loop md d vs ctx r = Val (Ok p) -> same_size r p.
Proof.
  induction vs as [|[x m] vs IH]; intros ctx r p H; cbn [render_graphics_loop] in H.
  { injection H as <-. apply same_size_refl. }
  apply try_ok in H as (v & -> & H).
  destruct v; try discriminate; try (now apply IH in H); try (injection H as <-; apply same_size_refl).
  - destruct (set_background _ _ _) as [c' o]. apply try_ok in H as (u & _ & H). eauto.
  - destruct (set_foreground _ _ _) as [c' o]. apply try_ok in H as (u & _ & H). eauto.
  - destruct (set_foreground _ _ _) as [c' o]. apply try_ok in H as (u & _ & H).
    apply try_ok in H as (q & E & H). eapply same_size_trans; [eapply render_rect_size; eauto|eauto].
  - destruct p0 as [[[x0 y0] gid]|]; apply try_ok in H as (g & _ & H); apply try_ok in H as (q & E & H);
      apply map_err_ok in E; (eapply same_size_trans; [eapply render_graphic_size; eauto|eauto]).
Qed.

Lemma spans_size md d all todo : forall r p,
  render_spans_loop md d all todo r = Val (Ok p) -> same_size r p.
Proof.
  induction todo as [|s todo IH]; intros r p H; cbn [render_spans_loop] in H.
  { injection H as <-. apply same_size_refl. }
  apply try_ok in H as (x & _ & H). apply try_ok in H as (y & _ & H).
  apply try_ok in H as (f & _ & H). apply try_ok in H as (q & E & H).
  apply map_err_ok in E. eapply same_size_trans; [eapply render_text_loop_size; exact E|eauto].
Qed.

Lemma text_spans_size md d spans r p :
  render_text_spans md d spans r = Val (Ok p) -> same_size r p.
Proof. unfold render_text_spans. intros H. apply try_ok in H as (u & _ & H). eapply spans_size; eauto. Qed.

(** ** The page loop *)

(** The rectangle left in force by the [tr] tags of [vs]. *)
Inductive LastRect (md : mode) (d : Dms) (ds : RenderState) (r0 : Rectangle) : list Value -> Rectangle -> Prop :=
| Lr_none vs : text_rects vs = O -> LastRect md d ds r0 vs r0
| Lr_some a r b q : text_rects b = O -> update_text_rectangle md d ds r = Val (Some q) ->
    LastRect md d ds r0 (a ++ VTextRectangle r :: b) q.

Lemma text_rects_app a b : text_rects (a ++ b) = (text_rects a + text_rects b)%nat.
Proof. induction a as [|v a IH]; cbn; auto. destruct v; cbn; auto. Qed.

Lemma inner_rects vs : Forall inner vs -> text_rects vs = O.
Proof. induction 1 as [|v vs Hv H IH]; auto. destruct v; cbn in *; auto. contradiction. Qed.
Lemma inner_np vs : Forall inner vs -> no_page_break vs.
Proof. intros H Hi. rewrite Forall_forall in H. apply (H _ Hi). Qed.

Record PageOk (md : mode) (d : Dms) (xs : Outcomes) (rs : RenderState) (vs : list Value) (p : AP) : Prop := {
  po_np : no_page_break vs;
  po_same : same_page rs (ap_rs p);
  po_rect : LastRect md d (rs_new d) (rs_rect rs) vs (rs_rect (ap_rs p));
  po_end : (xs = okv vs /\ ap_rest p = [] /\ ap_state p = done (0 <? rs_off_time rs))
           \/ (xs = okv vs ++ Val (Ok VNewPage) :: ap_rest p /\ ap_state p = new_page (0 <? rs_off_time rs)) }.

Lemma new_page_on b : new_page b <> PsOn false.
Proof. destruct b; discriminate. Qed.
Lemma done_on b : done b <> PsOn false.
Proof. destruct b; discriminate. Qed.

Lemma a_page_loop_stop md d f n p raster : ap_state p <> PsOn false ->
  a_page_loop md d (S f) n p raster = Val (p, Ok raster).
Proof. intros H. cbn [a_page_loop]. destruct (ap_state p) as [[]|[]|]; auto. congruence. Qed.

Lemma page_loop_ok md d fuel : forall n p raster p' raster',
  ap_state p = PsOn false ->
  a_page_loop md d fuel n p raster = Val (p', Ok raster') ->
  same_size raster raster' /\
  exists vs, PageOk md d (ap_rest p) (ap_rs p) vs p' /\ n + 1 + Z.of_nat (text_rects vs) <= 50.
Proof.
  induction fuel as [|f IH]; intros n p raster p' raster' Hs H; cbn [a_page_loop] in H; [discriminate|].
  rewrite Hs in H.
  apply bind_val in H as (g & HG & H). destruct g as [r1|e]; [|discriminate].
  apply bind_val in H as ([p1 r2] & HT & H). destruct r2 as [r2|e]; [|discriminate].
  unfold a_text_rect in HT. apply bind_val in HT as (e & HE & HT).
  destruct (a_rtr_ok _ _ _ _ _ _ _ _ _ HE) as [HSP HOK].
  destruct (a_res e) as [[]|er] eqn:ER; [|discriminate].
  apply bind_val in HT as (r3 & HR & HT). injection HT as <- ->.
  specialize (HOK eq_refl). cbv zeta in H.
  destruct (MAX_TEXT_RECTANGLES <? n + 1) eqn:EM; [discriminate|].
  apply Z.ltb_ge in EM. change MAX_TEXT_RECTANGLES with 50 in EM.
  assert (same_size raster r2) as HSZ.
  { eapply same_size_trans; [eapply graphics_size; eauto|eapply text_spans_size; eauto]. }
  destruct HOK as [vs e Hx Hi HR1 HS1 HR2|vs e Hx Hi HS1 HR2|vs r q e Hx Hi HS1 HU HR2].
  - destruct f; [discriminate|]. rewrite a_page_loop_stop in H.
    2:{ cbn [ap_state]. rewrite HS1. apply done_on. }
    injection H as <- <-. split; auto. exists vs. split.
    + constructor; cbn [ap_rs ap_rest ap_state]; auto.
      * now apply inner_np.
      * rewrite HR2. apply Lr_none. now apply inner_rects.
    + rewrite (inner_rects vs Hi). lia.
  - destruct f; [discriminate|]. rewrite a_page_loop_stop in H.
    2:{ cbn [ap_state]. rewrite HS1. apply new_page_on. }
    injection H as <- <-. split; auto. exists vs. split.
    + constructor; cbn [ap_rs ap_rest ap_state]; auto.
      * now apply inner_np.
      * rewrite HR2. apply Lr_none. now apply inner_rects.
    + rewrite (inner_rects vs Hi). lia.
  - apply IH in H; [|exact HS1]. destruct H as [HSZ' (vs' & [Pn Psm Pr Pe] & Hn)].
    cbn [ap_rs ap_rest] in *.
    split; [eapply same_size_trans; eauto|].
    exists (vs ++ VTextRectangle r :: vs'). split.
    + pose proof HSP as (_ & Eoff & _). rewrite <- Eoff in Pe.
      constructor.
      * intros HI. apply in_app_or in HI as [HI|[HI|HI]]; [|discriminate|].
        -- apply (inner_np vs Hi HI).
        -- apply (Pn HI).
      * eapply same_page_trans; eauto.
      * destruct Pr as [vs' Hz|a r' b q' Hz HU'].
        -- rewrite HR2. apply Lr_some; auto.
        -- replace (vs ++ VTextRectangle r :: a ++ VTextRectangle r' :: b)
             with ((vs ++ VTextRectangle r :: a) ++ VTextRectangle r' :: b) by (rewrite <- app_assoc; reflexivity).
           apply Lr_some; auto.
      * destruct Pe as [(E1 & E2 & E3)|(E1 & E2)]; [left|right].
        -- splits; auto. rewrite Hx, E1, okv_app. reflexivity.
        -- splits; auto. rewrite Hx, E1, okv_app. cbn [okv map]. rewrite <- app_assoc. reflexivity.
    + rewrite text_rects_app, (inner_rects vs Hi). cbn. lia.
Qed.

(** ** Page state *)

Definition last_bg (ctx : ColorCtx) (vs : list Value) : Color -> Color :=
  fun b => fold_left (fun b v => match v with
                                 | VColorBackground (Some c) | VPageBackground (Some c) => c
                                 | VColorBackground None | VPageBackground None => color_of_rgb (bg_default ctx)
                                 | _ => b
                                 end) vs b.
Definition last_times (ds : RenderState) (vs : list Value) (t : Z * Z) : Z * Z :=
  fold_left (fun t v => match v with
                        | VPageTime on off => (or_default on (rs_on_time ds), or_default off (rs_off_time ds))
                        | _ => t
                        end) vs t.
Definition with_page (rs : RenderState) (b : Color) (t : Z * Z) : RenderState :=
  let c := rs_ctx rs in
  set_times (set_ctx rs (mkCtx (color_scheme c) (fg_default c) (fg_current c) (bg_default c) b)) (fst t) (snd t).

Definition bg_shown (ctx : ColorCtx) (v : Value) : Prop :=
  match v with
  | VColorBackground (Some c) | VPageBackground (Some c) => ctx_rgb ctx c <> None
  | _ => True
  end.

Lemma ctx_rgb_frame a b c : color_scheme a = color_scheme b -> fg_default a = fg_default b ->
  bg_default a = bg_default b -> ctx_rgb a c = ctx_rgb b c.
Proof.
  intros H1 H2 H3. unfold ctx_rgb. rewrite H1.
  destruct (color_scheme b); destruct c; auto; unfold rgb_monochrome_1, rgb_monochrome_8; now rewrite H2, H3.
Qed.

Lemma with_page_eta rs : with_page rs (bg_current (rs_ctx rs)) (rs_on_time rs, rs_off_time rs) = rs.
Proof. destruct rs as [[]]. reflexivity. Qed.

Lemma with_page_twice rs b t b' t' : with_page (with_page rs b t) b' t' = with_page rs b' t'.
Proof. destruct rs as [[]]. reflexivity. Qed.

(** The loop over the values of one page. *)
Lemma update_loop_ok ds vs tail : forall rs,
  no_page_break vs -> (tail = [] \/ exists r, tail = Val (Ok VNewPage) :: r) ->
  forall rs' u, update_page_loop ds (bare (okv vs ++ tail)) rs = Val (rs', u) ->
  match u with
  | Ok _ => Forall (bg_shown (rs_ctx rs)) vs
            /\ rs' = with_page rs (last_bg (rs_ctx rs) vs (bg_current (rs_ctx rs)))
                       (last_times ds vs (rs_on_time rs, rs_off_time rs))
  | Err _ => True
  end.
Proof.
  induction vs as [|v vs IH]; intros rs Hn Ht rs' u H.
  - cbn [okv map app] in H. destruct Ht as [->|[r ->]]; cbn in H; injection H as <- <-;
      (split; [constructor|symmetry; apply with_page_eta]).
  - assert (no_page_break vs) as Hn' by (intros HI; apply Hn; now right).
    cbn [okv map app bare] in H. cbn [update_page_loop bind] in H.
    assert (HG : forall rs1, color_scheme (rs_ctx rs1) = color_scheme (rs_ctx rs) ->
                fg_default (rs_ctx rs1) = fg_default (rs_ctx rs) ->
                bg_default (rs_ctx rs1) = bg_default (rs_ctx rs) ->
                bg_shown (rs_ctx rs) v ->
                (exists b t, rs1 = with_page rs b t /\ last_bg (rs_ctx rs) [v] (bg_current (rs_ctx rs)) = b
                             /\ last_times ds [v] (rs_on_time rs, rs_off_time rs) = t) ->
                update_page_loop ds (bare (okv vs ++ tail)) rs1 = Val (rs', u) ->
                match u with
                | Ok _ => Forall (bg_shown (rs_ctx rs)) (v :: vs)
                          /\ rs' = with_page rs (last_bg (rs_ctx rs) (v :: vs) (bg_current (rs_ctx rs)))
                                     (last_times ds (v :: vs) (rs_on_time rs, rs_off_time rs))
                | Err _ => True
                end).
    { intros rs1 E1 E2 E3 Hb (b & t & -> & Eb & Et) HE. apply IH in HE; auto. destruct u as [u|]; auto.
      destruct HE as [HF ->]. split.
      - constructor; auto.
      - rewrite with_page_twice. f_equal.
        + unfold last_bg. cbn [fold_left]. unfold last_bg in Eb. cbn [fold_left] in Eb. now rewrite <- Eb.
        + unfold last_times. cbn [fold_left]. unfold last_times in Et. cbn [fold_left] in Et. rewrite Et. destruct t. reflexivity. }
    destruct v; try (eapply HG; [| | | | |exact H]; cbn; auto;
                     exists (bg_current (rs_ctx rs)), (rs_on_time rs, rs_off_time rs);
                     split; [symmetry; apply with_page_eta|split; reflexivity]).
    + unfold set_background in H. destruct c as [c|].
      * destruct (ctx_rgb (rs_ctx rs) c) eqn:EC.
        -- eapply HG; [| | | | |exact H]; cbn; auto; [congruence|].
           exists c, (rs_on_time rs, rs_off_time rs). splits; auto.
        -- injection H as <- <-. exact I.
      * eapply HG; [| | | | |exact H]; cbn; auto.
        exists (color_of_rgb (bg_default (rs_ctx rs))), (rs_on_time rs, rs_off_time rs). splits; auto.
    + exfalso. apply Hn. now left.
    + unfold set_background in H. destruct c as [c|].
      * destruct (ctx_rgb (rs_ctx rs) c) eqn:EC.
        -- eapply HG; [| | | | |exact H]; cbn; auto; [congruence|].
           exists c, (rs_on_time rs, rs_off_time rs). splits; auto.
        -- injection H as <- <-. exact I.
      * eapply HG; [| | | | |exact H]; cbn; auto.
        exists (color_of_rgb (bg_default (rs_ctx rs))), (rs_on_time rs, rs_off_time rs). splits; auto.
    + eapply HG; [| | | | |exact H]; cbn; auto.
      eexists (bg_current (rs_ctx rs)), _. split; [|split; reflexivity]. destruct rs as [[]]. reflexivity.
Qed.

(** ** Supported tags *)

Lemma value_tag_iff v t : value_tag v = Some t <-> WrittenWith v t.
Proof.
  split.
  - destruct v; cbn [value_tag]; try (intros [= <-]; constructor); try discriminate.
    intros H.
    repeat match type of H with
           | (if ?i =? ?k then _ else _) = _ =>
               destruct (Z.eqb_spec i k) as [->|];
               [injection H as <-;
                match goal with |- WrittenWith (VField ?n _) ?t' =>
                  change n with (Z.of_nat (Z.to_nat (n - 1)) + 1); now apply Ww_f end|]
           end. discriminate.
  - destruct 1 as [| | |i w t H| | | | | | | | | | | | | | | | |]; cbn [value_tag]; auto.
    do 13 (destruct i as [|i]; [cbn in H; injection H as <-; reflexivity|]).
    destruct i; discriminate.
Qed.

Lemma tag_bit_np t : (tag_bit t =? tag_bit TNp) = true -> t = TNp.
Proof. destruct t; cbn; congruence. Qed.

Lemma Written_np v : WrittenWith v TNp -> v = VNewPage.
Proof.
  intros H. apply value_tag_iff in H. destruct v; cbn in H; try discriminate; auto.
  repeat match type of H with (if ?c then _ else _) = _ => destruct c end; discriminate.
Qed.

Definition PageTail (d : Dms) (tail : Outcomes) : Prop :=
  tail = [] \/ exists r, tail = Val (Ok VNewPage) :: r /\ Supports d VNewPage.

Lemma contains_lists d t : contains_tag (supported_multi_tags (d_multi_cfg d)) t = true <-> Lists d t.
Proof. reflexivity. Qed.

Lemma check_ok d xs u : check_unsupported d (bare xs) = Val (Ok u) ->
  exists vs tail, xs = okv vs ++ tail /\ no_page_break vs /\ Forall (Supports d) vs /\ PageTail d tail.
Proof.
  induction xs as [|x xs IH]; cbn [bare map check_unsupported]; intros H.
  { exists [], []. splits; auto. - intros []. - now left. }
  apply try_ok in H as (v & -> & H).
  destruct (value_tag v) as [t|] eqn:ET.
  - destruct (negb _) eqn:EN; [discriminate|]. apply negb_false_iff in EN.
    assert (Supports d v) as HS.
    { intros t' Ht'. apply value_tag_iff in Ht'. rewrite ET in Ht'. injection Ht' as <-. exact EN. }
    destruct (tag_bit t =? tag_bit TNp) eqn:EB.
    + apply tag_bit_np in EB. subst t. apply value_tag_iff, Written_np in ET. subst v.
      exists [], (Val (Ok VNewPage) :: xs). splits; auto. { intros []. } right. eauto.
    + destruct (IH H) as (vs & tail & -> & Hn & HF & HT). exists (v :: vs), tail. splits; auto.
      intros [->|HI]; [|exact (Hn HI)]. cbn in ET. injection ET as <-. cbn in EB. discriminate.
  - destruct (IH H) as (vs & tail & -> & Hn & HF & HT). exists (v :: vs), tail. splits; auto.
    + intros [->|HI]; [discriminate|exact (Hn HI)].
    + constructor; auto. intros t' Ht'. apply value_tag_iff in Ht'. congruence.
Qed.

Lemma check_err d vs x e rest : no_page_break vs -> Forall (Supports d) vs -> Refused d x e ->
  check_unsupported d (bare (okv vs ++ Val x :: rest)) = Val (Err e).
Proof.
  intros Hn HF HR. induction vs as [|v vs IH]; cbn [okv map app bare check_unsupported].
  - destruct HR as [e|v t Hw Hl]; cbn [try]; auto.
    apply value_tag_iff in Hw. rewrite Hw.
    destruct (contains_tag _ t) eqn:EC; [now apply contains_lists in EC|]. reflexivity.
  - cbn [try]. inversion HF as [|v' vs' Hv HF' [E1 E2]]. 
    assert (no_page_break vs) as Hn' by (intros HI; apply Hn; now right).
    destruct (value_tag v) as [t|] eqn:ET; [|now apply IH].
    apply value_tag_iff in ET. pose proof (Hv t ET) as HL. apply contains_lists in HL. rewrite HL. cbn [negb].
    destruct (tag_bit t =? tag_bit TNp) eqn:EB; [|now apply IH].
    apply tag_bit_np in EB. subst t. apply Written_np in ET. subst v. exfalso. apply Hn. now left.
Qed.

(** ** One page *)

Definition page_reset (d : Dms) (rs : RenderState) : RenderState :=
  set_span (set_line (set_line_spacing (set_rect rs (rs_rect (rs_new d))) None) 0) 0.

Definition page_start (d : Dms) (rs : RenderState) (vs : list Value) : RenderState :=
  with_page (page_reset d rs) (last_bg (rs_ctx rs) vs (bg_current (rs_ctx rs)))
    (last_times (rs_new d) vs (rs_on_time rs, rs_off_time rs)).

Lemma okv_split vs vs' tail tail' :
  okv vs ++ tail = okv vs' ++ tail' -> no_page_break vs -> no_page_break vs' ->
  (tail = [] \/ exists r, tail = Val (Ok VNewPage) :: r) ->
  (tail' = [] \/ exists r, tail' = Val (Ok VNewPage) :: r) -> vs = vs' /\ tail = tail'.
Proof.
  revert vs'. induction vs as [|v vs IH]; intros [|v' vs'] H Hn Hn' Ht Ht'; cbn [okv map app] in H.
  - auto.
  - destruct Ht as [->|[r ->]]; [discriminate|]. injection H as <- _. exfalso. apply Hn'. now left.
  - destruct Ht' as [->|[r ->]]; [discriminate|]. injection H as -> _. exfalso. apply Hn. now left.
  - injection H as -> H. apply IH in H; auto.
    + destruct H as [-> ->]. auto.
    + intros HI. apply Hn. now right.
    + intros HI. apply Hn'. now right.
Qed.

Lemma PageTail_weak d tail : PageTail d tail -> tail = [] \/ exists r, tail = Val (Ok VNewPage) :: r.
Proof. intros [?|(r & ? & _)]; eauto. Qed.

Lemma on_page_ok md d p p' pg : a_on_page md d p = Val (p', Ok pg) ->
  exists vs tail, ap_rest p = okv vs ++ tail /\ no_page_break vs /\ Forall (Supports d) vs /\ PageTail d tail
    /\ Forall (bg_shown (rs_ctx (ap_rs p))) vs
    /\ (Z.of_nat (text_rects vs) <= 49)
    /\ PageOk md d (ap_rest p) (page_start d (ap_rs p) vs) vs p'
    /\ pg_duration pg = rs_on_time (page_start d (ap_rs p) vs)
    /\ SignSized d (pg_raster pg)
    /\ exists raster, a_page_loop md d 52 0 (mkAP (page_start d (ap_rs p) vs) (PsOn false) (ap_rest p))
                       (build_raster (page_start d (ap_rs p) vs)) = Val (p', Ok raster)
                      /\ pg_raster pg = raster.
Proof.
  unfold a_on_page. intros H. apply bind_val in H as (c & HC & H). destruct c as [[]|e]; [|discriminate].
  destruct (check_ok _ _ _ HC) as (vs & tail & Hx & Hn & HF & HT).
  apply bind_val in H as ([rs u] & HU & H). destruct u as [[]|e]; [|discriminate].
  unfold update_page_state in HU. rewrite Hx in HU.
  apply update_loop_ok in HU; auto. 2:{ eapply PageTail_weak; eauto. }
  destruct HU as [HB HRS].
  assert (rs = page_start d (ap_rs p) vs) as ERS by (rewrite HRS; reflexivity).
  clear HRS. subst rs.
  apply bind_val in H as ([p1 r] & HL & H). destruct r as [r|e]; [|discriminate]. injection H as <- <-.
  pose proof HL as HL0. apply page_loop_ok in HL; [|reflexivity].
  destruct HL as [HSZ (vs' & HP & Hk)]. cbn [ap_rest ap_rs] in *.
  assert (vs' = vs) as ->.
  { destruct HP as [Pn _ _ Pe]. rewrite Hx in Pe.
    destruct Pe as [(E & _)|(E & _)].
    - rewrite <- (app_nil_r (okv vs')) in E. apply okv_split in E; auto; [|eapply PageTail_weak; eauto]. symmetry. tauto.
    - apply okv_split in E; auto; [|eapply PageTail_weak; eauto|eauto]. symmetry. tauto. }
  exists vs, tail. splits; auto; cbn [pg_duration pg_raster].
  - lia.
  - destruct HP as [_ (E & _) _ _]. now rewrite E.
  - destruct HSZ as [E1 E2]. split; [rewrite <- E1|rewrite <- E2]; reflexivity.
  - eauto.
Qed.

(** ** Times *)

Lemma last_times_cases ds vs t :
  (no_page_time vs /\ last_times ds vs t = t) \/
  (exists a on off b, vs = a ++ VPageTime on off :: b /\ no_page_time b
     /\ last_times ds vs t = (or_default on (rs_on_time ds), or_default off (rs_off_time ds))).
Proof.
  revert t. induction vs as [|v vs IH]; intros t.
  - left. split; [intros a b []|reflexivity].
  - unfold last_times. cbn [fold_left]. fold (last_times ds).
    change (fold_left _ vs ?x) with (last_times ds vs x).
    destruct (IH (match v with
                  | VPageTime on off => (or_default on (rs_on_time ds), or_default off (rs_off_time ds))
                  | _ => t end)) as [[Hn E]|(a & on & off & b & -> & Hb & E)].
    + rewrite E. destruct v;
        try (left; split; [intros ? ? [HI|HI]; [discriminate|exact (Hn _ _ HI)]|reflexivity]).
      right. exists []. do 2 eexists. exists vs. split; [reflexivity|]. split; [exact Hn|reflexivity].
    + right. exists (v :: a), on, off, b. splits; auto.
Qed.

Lemma times_step on_d off_d ds before vs on off :
  rs_on_time ds = on_d -> rs_off_time ds = off_d ->
  TimesInForce on_d off_d before on off ->
  TimesInForce on_d off_d (before ++ vs) (fst (last_times ds vs (on, off))) (snd (last_times ds vs (on, off))).
Proof.
  intros <- <- H. destruct (last_times_cases ds vs (on, off)) as [[Hn ->]|(a & on' & off' & b & -> & Hb & ->)]; cbn [fst snd].
  - destruct H as [H|a on off b -> Hb].
    + apply Tf_default. intros x y HI. apply in_app_or in HI as [HI|HI]; [exact (H x y HI)|exact (Hn x y HI)].
    + apply Tf_set with (a := a) (b := b ++ vs).
      * now rewrite <- app_assoc.
      * intros x y HI. apply in_app_or in HI as [HI|HI]; [exact (Hb x y HI)|exact (Hn x y HI)].
  - apply Tf_set with (a := before ++ a) (b := b); auto. now rewrite <- app_assoc.
Qed.

Lemma SplitPages_unique vs pgs pg tail :
  SplitPages vs pgs -> okv vs = okv pg ++ tail -> no_page_break pg ->
  (tail = [] -> pgs = [pg]) /\
  (forall r, tail = Val (Ok VNewPage) :: r -> exists vs' pgs', r = okv vs' /\ pgs = pg :: pgs' /\ SplitPages vs' pgs').
Proof.
  intros HS HE Hn. split.
  - intros ->. rewrite app_nil_r in HE. apply okv_inj in HE. subst vs.
    inversion HS as [pg' Hp E1 E2|pg' rest pgs' Hp HS' E1 E2]; subst; auto.
    exfalso. apply Hn. apply in_or_app. right. now left.
  - intros r ->. inversion HS as [pg' Hp E1 E2|pg' rest pgs' Hp HS' E1 E2]; subst.
    + exfalso. rewrite <- (app_nil_r (okv vs)) in HE. apply okv_split in HE; eauto. destruct HE as [_ HE]. discriminate.
    + rewrite okv_app in HE. cbn [okv map] in HE. apply okv_split in HE; eauto.
      destruct HE as [-> HE]. injection HE as <-. eauto.
Qed.

Lemma done_true b : done b = if b then PsOff false else PsDone.
Proof. reflexivity. Qed.

Definition all_ok (l : list (result Page SyntaxError)) (ps : list Page) : Prop := l = map Ok ps.

(** The pages yielded from an ON state with the values of the pages [pgs]
    left. *)
Lemma sequence_ok md d : forall pgs vs before n p ps,
  SplitPages vs pgs -> ap_rest p = okv vs -> (exists b, ap_state p = PsOn b) ->
  TimesInForce (default_page_on_time (d_multi_cfg d)) (default_page_off_time (d_multi_cfg d)) before
    (rs_on_time (ap_rs p)) (rs_off_time (ap_rs p)) ->
  a_take md d n p = Val (map Ok ps) ->
  (List.length ps <= 2 * List.length pgs)%nat /\
  ((List.length ps < n)%nat ->
   PageSequence (default_page_on_time (d_multi_cfg d)) (default_page_off_time (d_multi_cfg d)) before pgs ps).
Proof.
  induction pgs as [|pg pgs IH]; intros vs before n p ps HS HR [b Hst] HTF H.
  { inversion HS. }
  destruct n as [|n]; cbn [a_take] in H.
  { injection H as H. destruct ps; [|discriminate]. cbn. split; lia. }
  apply bind_val in H as ([o p1] & HN & H). unfold a_next in HN. rewrite Hst in HN.
  apply bind_val in HN as ([p2 rp] & HP & HN). cbn [fst snd] in HN. injection HN as <- <-.
  apply bind_val in H as (l & HL & H). injection H as H.
  destruct ps as [|P ps]; [discriminate|]. cbn [map] in H. injection H as -> ->.
  apply on_page_ok in HP as (pg' & tail & Hx & Hn & HF & HT & _ & _ & [_ PS _ PE] & HD & _ & _).
  assert (pg' = pg /\ ((tail = [] /\ pgs = []) \/ exists r, tail = Val (Ok VNewPage) :: r /\
             exists vs', r = okv vs' /\ SplitPages vs' pgs)) as [-> HT'].
  { rewrite HR in Hx. destruct (SplitPages_unique _ _ _ _ HS Hx Hn) as [U1 U2].
    destruct HT as [->|(r & -> & _)].
    - specialize (U1 eq_refl). injection U1 as -> ->. auto.
    - destruct (U2 r eq_refl) as (vs' & pgs' & -> & E & HS'). injection E as -> ->. split; auto. right. eauto. }
  set (rs1 := page_start d (ap_rs p) pg) in *.
  assert (HTF1 : TimesInForce (default_page_on_time (d_multi_cfg d)) (default_page_off_time (d_multi_cfg d))
                   (before ++ pg) (rs_on_time rs1) (rs_off_time rs1)).
  { unfold rs1, page_start. cbn [with_page set_times rs_on_time rs_off_time]. apply times_step; auto. }
  destruct PS as (Eon & Eoff & _).
  assert (Hcase : forall st, ap_state p2 = st ->
    (pgs = [] /\ ap_rest p2 = [] /\ st = done (0 <? rs_off_time rs1)) \/
    (exists vs', ap_rest p2 = okv vs' /\ SplitPages vs' pgs /\ st = new_page (0 <? rs_off_time rs1))).
  { intros st <-. rewrite HR in PE. destruct HT' as [[-> ->]|(r & -> & vs' & -> & HS')].
    - destruct PE as [(E1 & E2 & E3)|(E1 & E3)]; [left; auto|].
      exfalso. rewrite HR in Hx. rewrite Hx in E1. apply okv_split in E1; eauto. destruct E1; discriminate.
    - right. exists vs'. destruct PE as [(E1 & E2 & E3)|(E1 & E3)].
      + exfalso. rewrite HR in Hx. rewrite Hx in E1. rewrite <- (app_nil_r (okv pg)) in E1 at 2.
        apply okv_split in E1; eauto. destruct E1; discriminate.
      + splits; auto. rewrite HR in Hx. rewrite Hx in E1. apply okv_split in E1; eauto.
        destruct E1 as [_ E1]. injection E1 as <-. reflexivity. }
  specialize (Hcase _ eq_refl).
  destruct (0 <? rs_off_time rs1) eqn:EO.
  - (* an OFF page follows *)
    apply Z.ltb_lt in EO.
    assert (exists m, ap_state p2 = PsOff m) as [mm Est].
    { destruct Hcase as [(_ & _ & ->)|(vs' & _ & _ & ->)]; cbn; eauto. }
    destruct n as [|n].
    { cbn [a_take] in HL. injection HL as HL. destruct ps; [|discriminate]. cbn. split; lia. }
    cbn [a_take] in HL. unfold a_next in HL. rewrite Est in HL. cbn [bind] in HL.
    apply bind_val in HL as (l & HL & H). injection H as H.
    destruct ps as [|Q ps]; [discriminate|]. cbn [map] in H. injection H as <- ->.
    cbn [List.length].
    assert (HQ : forall lrest, PageSequence (default_page_on_time (d_multi_cfg d)) (default_page_off_time (d_multi_cfg d))
                   (before ++ pg) pgs lrest ->
                 PageSequence (default_page_on_time (d_multi_cfg d)) (default_page_off_time (d_multi_cfg d))
                   before (pg :: pgs)
                   (P :: mkPage (build_raster (ap_rs p2)) (rs_off_time (ap_rs p2)) :: lrest)).
    { intros lrest Hl. apply Ps_on_off with (on := rs_on_time rs1) (off := rs_off_time rs1)
        (c := background_rgb (rs_ctx (ap_rs p2))); auto; cbn [pg_duration pg_raster].
      intros x y _ _. reflexivity. }
    destruct Hcase as [(-> & E2 & E3)|(vs' & E2 & HS' & E3)].
    + cbn in E3. rewrite E3 in Est. injection Est as <-. cbn [next_state] in HL.
      destruct n as [|n].
      { cbn [a_take] in HL. injection HL as HL. destruct ps; [|discriminate]. cbn. split; lia. }
      cbn [a_take a_next ap_state bind] in HL. injection HL as HL. destruct ps; [|discriminate].
      cbn. split; [lia|]. intros _. apply HQ. constructor.
    + cbn in E3. rewrite E3 in Est. injection Est as <-. cbn [next_state] in HL.
      apply IH with (vs := vs') (before := before ++ pg) in HL; auto; cbn [ap_rs ap_state ap_rest].
      * destruct HL as [HL1 HL2]. split; [lia|]. intros Hlt. apply HQ. apply HL2. lia.
      * eauto.
      * rewrite <- Eon, <- Eoff. auto.
  - apply Z.ltb_ge in EO.
    assert (HQ : forall lrest, PageSequence (default_page_on_time (d_multi_cfg d)) (default_page_off_time (d_multi_cfg d))
                   (before ++ pg) pgs lrest ->
                 PageSequence (default_page_on_time (d_multi_cfg d)) (default_page_off_time (d_multi_cfg d))
                   before (pg :: pgs) (P :: lrest)).
    { intros lrest Hl. apply Ps_on with (on := rs_on_time rs1) (off := rs_off_time rs1); auto. }
    cbn [List.length].
    destruct Hcase as [(-> & E2 & E3)|(vs' & E2 & HS' & E3)]; cbn in E3.
    + destruct n as [|n].
      { cbn [a_take] in HL. injection HL as HL. destruct ps; [|discriminate]. cbn. split; lia. }
      cbn [a_take] in HL. unfold a_next in HL. rewrite E3 in HL. cbn [bind] in HL.
      injection HL as HL. destruct ps; [|discriminate].
      cbn. split; [lia|]. intros _. apply HQ. constructor.
    + apply IH with (vs := vs') (before := before ++ pg) in HL; auto.
      * destruct HL as [HL1 HL2]. split; [lia|]. intros Hlt. apply HQ. apply HL2. lia.
      * eauto.
      * rewrite <- Eon, <- Eoff. auto.
Qed.
