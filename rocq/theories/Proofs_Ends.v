(** No loop of the renderer runs for ever. *)

From Coq Require Import String.
From Verif Require Import Base Str Multi Color Raster Font Graphic Config Sign Render
  Spec_Multi Spec_Render Proofs_Str Proofs_Split Proofs_Norm Proofs_Iter Proofs_Machine Proofs_Pages Proofs_Reach.
Open Scope list_scope.

Definition runs {A} (m : M A) : Prop := m <> Hang.

Lemma runs_val {A} (a : A) : runs (Val a). Proof. discriminate. Qed.
Lemma runs_panic {A} : runs (@Panic A). Proof. discriminate. Qed.
Lemma runs_bind {A B} (m : M A) (k : A -> M B) : runs m -> (forall a, runs (k a)) -> runs (bind m k).
Proof. unfold runs. destruct m; cbn; auto. discriminate. Qed.
Lemma runs_try {A B E} (m : M (result A E)) (k : A -> M (result B E)) :
  runs m -> (forall a, runs (k a)) -> runs (try m k).
Proof. unfold runs. destruct m as [[]| |]; cbn; auto; discriminate. Qed.

Create HintDb runs.
#[local] Hint Resolve runs_val runs_panic : runs.

Ltac runs1 :=
  match goal with
  | |- runs (Val _) => apply runs_val
  | |- runs Panic => apply runs_panic
  | |- runs (bind _ _) => apply runs_bind; [|intros]
  | |- runs (try _ _) => apply runs_try; [|intros]
  | |- runs (map_err _ _) => unfold map_err
  | |- runs (match ?x with _ => _ end) => destruct x
  | |- runs _ => solve [auto with runs]
  | |- _ => progress cbv zeta
  end.
Ltac runs := repeat runs1.

Lemma chk_runs md b v : runs (chk md b v). Proof. unfold chk. runs. Qed.
#[local] Hint Resolve chk_runs : runs.
Lemma chk8_runs md v : runs (chk8 md v). Proof. apply chk_runs. Qed.
Lemma chk16_runs md v : runs (chk16 md v). Proof. apply chk_runs. Qed.
Lemma chk64_runs md v : runs (chk64 md v). Proof. apply chk_runs. Qed.
Lemma chki_runs md v : runs (chk_i32 md v). Proof. unfold chk_i32. runs. Qed.
#[local] Hint Resolve chk8_runs chk16_runs chk64_runs chki_runs : runs.
Lemma intersection_runs md a b : runs (intersection md a b). Proof. unfold intersection. runs. Qed.
Lemma set_pixel_runs {P} (r : Raster P) x y c : runs (set_pixel r x y c). Proof. unfold set_pixel. runs. Qed.
Lemma index_runs l i : runs (index l i). Proof. unfold index. runs. Qed.
#[local] Hint Resolve intersection_runs set_pixel_runs index_runs : runs.
Lemma render_rect_runs md r q c v : runs (render_rect md r q c v). Proof. unfold render_rect. runs. Qed.
Lemma pixel_fn_runs g x y ctx : runs (pixel_fn g x y ctx).
Proof. unfold pixel_fn, pixel_1, pixel_8, pixel_24. runs. Qed.
#[local] Hint Resolve render_rect_runs pixel_fn_runs : runs.
Lemma draw_row_runs {P} g ctx (conv : rgb -> P) ox oy yy xs : forall page, runs (draw_row g ctx conv ox oy page yy xs).
Proof. induction xs; intros; cbn [draw_row]; unfold draw_pixel; runs. Qed.
#[local] Hint Resolve draw_row_runs : runs.
Lemma draw_rows_runs {P} g ctx (conv : rgb -> P) ox oy ys : forall page, runs (draw_rows g ctx conv ox oy page ys).
Proof. induction ys; intros; cbn [draw_rows]; runs. Qed.
#[local] Hint Resolve draw_rows_runs : runs.
Lemma render_graphic_runs md g page x y ctx : runs (render_graphic md g page x y ctx).
Proof. unfold render_graphic. runs. Qed.
#[local] Hint Resolve render_graphic_runs : runs.

Definition all_run (xs : Outcomes) : Prop := Forall runs xs.

Lemma graphics_runs md d xs : all_run xs -> forall ctx r, runs (render_graphics_loop md d (bare xs) ctx r).
Proof. induction 1 as [|x xs Hx Hxs IH]; intros; cbn [bare map render_graphics_loop]; runs; apply IH. Qed.
Lemma check_runs d xs : all_run xs -> runs (check_unsupported d (bare xs)).
Proof. induction 1 as [|x xs Hx Hxs IH]; intros; cbn [bare map check_unsupported]; runs; apply IH. Qed.
Lemma update_runs ds xs : all_run xs -> forall rs, runs (update_page_loop ds (bare xs) rs).
Proof. induction 1 as [|x xs Hx Hxs IH]; intros; cbn [bare map update_page_loop]; runs; apply IH. Qed.
Lemma utr_runs md d ds r : runs (update_text_rectangle md d ds r).
Proof. unfold update_text_rectangle. runs. Qed.
#[local] Hint Resolve utr_runs : runs.
Lemma rtr_runs md d ds po xs : all_run xs -> forall rs spans lb, runs (a_rtr md d ds po xs rs spans lb).
Proof. induction 1 as [|x xs Hx Hxs IH]; intros; cbn [a_rtr]; runs; apply IH. Qed.

Lemma text_width_runs md f t cs : runs (text_width md f t cs).
Proof.
  unfold text_width. generalize (match cs with Some c => c | None => f_char_spacing f end) as k. intros k.
  generalize 0 as w. induction t; intros; cbn [text_width_loop]; runs.
Qed.
#[local] Hint Resolve text_width_runs : runs.
Lemma render_bits_runs md x y w h cf b bis : forall page xx yy, runs (render_bits md page x y w h cf b bis xx yy).
Proof. induction bis; intros; cbn [render_bits]; runs. Qed.
#[local] Hint Resolve render_bits_runs : runs.
Lemma render_bytes_runs md x y w h cf bs : forall page xx yy, runs (render_bytes md page x y w h cf bs xx yy).
Proof. induction bs; intros; cbn [render_bytes]; runs. Qed.
Lemma render_char_runs md c page x y h cf : runs (render_char md c page x y h cf).
Proof. unfold render_char. apply render_bytes_runs. Qed.
#[local] Hint Resolve render_char_runs : runs.
Lemma render_text_runs md f page t x y cs cf : runs (font_render_text md f page t x y cs cf).
Proof.
  unfold font_render_text. match goal with |- context [render_text_loop _ _ _ _ _ _ _ _ ?w] => generalize w end.
  revert page. induction t; intros; cbn [render_text_loop]; runs.
Qed.
#[local] Hint Resolve render_text_runs : runs.
Lemma span_width_runs md s fonts : runs (span_width md s fonts).
Proof. unfold span_width. runs. Qed.
#[local] Hint Resolve span_width_runs : runs.
Lemma offset_horiz_runs md d spans s : runs (offset_horiz md d spans s).
Proof.
  unfold offset_horiz. apply runs_try; [|intros; runs].
  generalize (filter (fun x => matches_span (span_state s) (span_state x)) spans) as l. intros l.
  generalize (@None Span) as prev. generalize 0 at 2 as aft. generalize 0 as bef.
  induction l; intros; cbn [offset_horiz_loop]; runs.
Qed.
#[local] Hint Resolve offset_horiz_runs : runs.
Lemma offset_vert_runs md d spans s : runs (offset_vert md d spans s).
Proof.
  unfold offset_vert. apply runs_try; [runs|intros lines].
  apply runs_bind; [|intros; runs].
  generalize (@None TextLine) as prev. generalize 0 at 3 as bel. generalize 0 at 2 as ab. generalize 0 at 2 as ln.
  induction lines; intros; cbn [offset_vert_loop]; runs.
Qed.
#[local] Hint Resolve offset_vert_runs : runs.
Lemma span_x_runs md d spans s : runs (span_x md d spans s).
Proof. unfold span_x, span_x_left, span_x_center, span_x_right. runs. Qed.
Lemma span_y_runs md d spans s : runs (span_y md d spans s).
Proof. unfold span_y, baseline, baseline_top, baseline_middle, baseline_bottom. runs. Qed.
#[local] Hint Resolve span_x_runs span_y_runs : runs.
Lemma text_spans_runs md d spans r : runs (render_text_spans md d spans r).
Proof.
  unfold render_text_spans. apply runs_try; [runs|intros _].
  generalize spans at 1 as all. intros all. revert r.
  induction spans; intros; cbn [render_spans_loop]; unfold span_render_text; runs; apply IHspans.
Qed.
#[local] Hint Resolve text_spans_runs : runs.

Lemma all_run_suffix a b : suffix a b -> all_run b -> all_run a.
Proof. intros [u ->] H. apply Forall_app in H. tauto. Qed.

Lemma page_loop_runs md d fuel : forall n p raster, all_run (ap_rest p) -> n + Z.of_nat fuel > 51 ->
  0 <= n <= 50 -> runs (a_page_loop md d fuel n p raster).
Proof.
  induction fuel as [|f IH]; intros n p raster HA Hn Hb; cbn [a_page_loop]; [lia|].
  destruct (ap_state p) as [[]|[]|]; try apply runs_val.
  apply runs_bind; [now apply graphics_runs|]. intros [r|e]; [|apply runs_val].
  destruct (a_text_rect md d p r) as [[p1 r1]| |] eqn:ET; [| |].
  - cbn [bind]. destruct r1 as [r1|e]; [|apply runs_val]. cbv zeta.
    change MAX_TEXT_RECTANGLES with 50. destruct (Z.ltb_spec 50 (n + 1)); [apply runs_val|].
    apply IH; [|lia|lia].
    unfold a_text_rect in ET. apply bind_val in ET as (e & HE & ET).
    destruct (a_res e); [|discriminate]. apply bind_val in ET as (r3 & HR & ET). injection ET as <- _.
    cbn [ap_rest]. eapply all_run_suffix; [eapply a_rtr_suffix; eauto|auto].
  - apply runs_panic.
  - exfalso. revert ET. change (runs (a_text_rect md d p r)). unfold a_text_rect. cbv zeta.
    apply runs_bind; [now apply rtr_runs|]. intros e. runs.
Qed.

Lemma on_page_runs md d p : all_run (ap_rest p) -> runs (a_on_page md d p).
Proof.
  intros HA. unfold a_on_page. apply runs_bind; [now apply check_runs|]. intros [c|e]; [|apply runs_val].
  apply runs_bind; [now apply update_runs|]. intros [rs [u|e]]; [|apply runs_val].
  apply runs_bind; [apply page_loop_runs; cbn; auto; lia|]. intros [p1 [r|e]]; apply runs_val.
Qed.

Lemma next_suffix md d p o p' : a_next md d p = Val (o, p') -> suffix (ap_rest p') (ap_rest p).
Proof.
  unfold a_next. destruct (ap_state p) eqn:ES.
  - intros H. apply bind_val in H as ([p1 r] & HP & H). injection H as <- <-.
    destruct (on_page_progress md d p p1 r ltac:(eauto) HP) as [[_ ?]|(e & _ & _ & _ & ->)]; auto. apply suffix_refl.
  - intros H. injection H as <- <-. apply suffix_refl.
  - intros H. injection H as <- <-. apply suffix_refl.
Qed.

Lemma take_runs md d n : forall p, all_run (ap_rest p) -> runs (a_take md d n p).
Proof.
  induction n as [|n IH]; intros p HA; cbn [a_take]; [apply runs_val|].
  destruct (a_next md d p) as [[o p']| |] eqn:EN; cbn [bind].
  - apply next_suffix in EN. destruct o; [|apply runs_val]. apply runs_bind; [|intros; apply runs_val].
    apply IH. eapply all_run_suffix; eauto.
  - apply runs_panic.
  - exfalso. revert EN. unfold a_next. destruct (ap_state p).
    + change (runs (let! r := a_on_page md d p in Val (Some (snd r), fst r))).
      apply runs_bind; [now apply on_page_runs|]. intros; apply runs_val.
    + discriminate.
    + discriminate.
Qed.

Lemma reads_runs m xs : Reads m xs -> all_run xs.
Proof.
  intros H. apply Reads_outcome in H. eapply Forall_impl; [|exact H]. intros x [->|(r & -> & _)]; discriminate.
Qed.

Lemma pages_run md d n ms : pages_take md d n (pages_new d ms) <> Hang.
Proof.
  destruct (Reads_exists ms) as (xs & HX). rewrite (take_start md d n ms xs HX).
  apply take_runs. cbn. eapply reads_runs; eauto.
Qed.
