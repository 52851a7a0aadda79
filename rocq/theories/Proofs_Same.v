(** Simulation of the page renderer on a trimmed message (C50). *)

From Coq Require Import String.
From Verif Require Import Base Str Multi Color Raster Font Graphic Config Sign Render
  Spec_Multi Spec_Render Spec_Same Proofs_Str Proofs_Split Proofs_Norm Proofs_Iter Proofs_Machine.
From Verif Require Spec_Layout Spec_Page Proofs_Each Proofs_Tail.
From Coq Require Import ZifyBool ZifyNat.
Ltac Zify.zify_post_hook ::= Z.div_mod_to_equations.
Open Scope list_scope.

Definition lift (vs : list Value) : Outcomes := map (fun v => Val (Ok v)) vs.

(** The settings are those of the context and the render state. *)
Definition AgC (s : Settings) (ctx : ColorCtx) : Prop :=
  match s_cf s with
  | None => fg_current ctx = color_of_rgb (fg_default ctx)
  | Some c => fg_current ctx = c /\ ctx_rgb ctx c <> None
  end.
Record Ag (d : Dms) (s : Settings) (rs : RenderState) : Prop := {
  ag_c : AgC s (rs_ctx rs);
  ag_f : rs_font rs = match s_fo s with Some (n, _) => n | None => rs_font (rs_new d) end;
  ag_v : rs_font_vid rs = match s_fo s with Some (_, v) => v | None => rs_font_vid (rs_new d) end;
  ag_jl : rs_jl rs = match s_jl s with Some j => j | None => rs_jl (rs_new d) end;
  ag_jlx : s_jl s <> Some JlOther /\ s_jl s <> Some JlFull;
  ag_jp : rs_jp rs = match s_jp s with Some j => j | None => rs_jp (rs_new d) end;
  ag_jpx : s_jp s <> Some JpOther }.

Lemma Ag_same d s rs rs' : Ag d s rs -> rs_ctx rs' = rs_ctx rs -> rs_font rs' = rs_font rs ->
  rs_font_vid rs' = rs_font_vid rs -> rs_jl rs' = rs_jl rs -> rs_jp rs' = rs_jp rs -> Ag d s rs'.
Proof.
  intros [C F V JL JLX JP JPX] E1 E2 E3 E4 E5.
  constructor; rewrite ?E1, ?E2, ?E3, ?E4, ?E5; auto.
Qed.
Ltac agsame := match goal with A : Ag _ _ ?rs |- Ag _ _ _ => apply (Ag_same _ _ rs); auto end.

Lemma Ag_new d : Ag d settings0 (rs_new d).
Proof. constructor; cbn; auto; try easy. Qed.

(** ** Colours *)

Lemma ctx_eta ctx : mkCtx (color_scheme ctx) (fg_default ctx) (fg_current ctx) (bg_default ctx) (bg_current ctx) = ctx.
Proof. now destruct ctx. Qed.

Lemma set_fg_redundant s ctx c v : AgC s ctx -> s_cf s = c -> set_foreground ctx c v = (ctx, Ok tt).
Proof.
  unfold AgC, set_foreground. intros H <-. destruct (s_cf s) as [c|].
  - destruct H as [<- H]. destruct (ctx_rgb ctx (fg_current ctx)); [|congruence]. now rewrite ctx_eta.
  - rewrite <- H. now rewrite ctx_eta.
Qed.

Lemma ctx_rgb_scheme a b c : color_scheme a = color_scheme b -> fg_default a = fg_default b ->
  bg_default a = bg_default b -> ctx_rgb a c = ctx_rgb b c.
Proof.
  destruct a, b; cbn. intros -> -> ->. reflexivity.
Qed.

Lemma set_fg_Ag s ctx c v ctx' : set_foreground ctx c v = (ctx', Ok tt) ->
  AgC (apply_setting (VColorForeground c) s) ctx'
  /\ bg_current ctx' = bg_current ctx /\ color_scheme ctx' = color_scheme ctx
  /\ fg_default ctx' = fg_default ctx /\ bg_default ctx' = bg_default ctx.
Proof.
  unfold set_foreground, AgC. cbn [apply_setting s_cf]. destruct c as [c|].
  - destruct (ctx_rgb ctx c) as [x|] eqn:E; [|discriminate]. intros H. injection H as <-. cbn. splits; auto.
    rewrite (ctx_rgb_scheme _ ctx); auto. congruence.
  - intros H. injection H as <-. cbn. splits; auto.
Qed.

Lemma set_bg_Ag s ctx c v ctx' r : set_background ctx c v = (ctx', r) -> AgC s ctx -> AgC s ctx'.
Proof.
  unfold set_background, AgC. intros H.
  assert (E : fg_current ctx' = fg_current ctx /\ color_scheme ctx' = color_scheme ctx
    /\ fg_default ctx' = fg_default ctx /\ bg_default ctx' = bg_default ctx).
  { destruct c as [c|]; [destruct (ctx_rgb ctx c)|]; injection H as <- <-; cbn; splits; auto. }
  destruct E as (-> & E1 & E2 & E3). destruct (s_cf s) as [x|]; [|now rewrite E2].
  intros [<- Y]. split; auto. rewrite (ctx_rgb_scheme _ ctx); auto.
Qed.

(** ** The passes over the values of a page *)


Ltac ifs := repeat match goal with |- context [if ?c then _ else _] => destruct c end.

Lemma check_trim d s f o vs ws : Trimmed s f o vs ws ->
  check_unsupported d (bare (lift vs)) = Val (Ok tt) -> check_unsupported d (bare (lift ws)) = Val (Ok tt).
Proof.
  induction 1 as [s f o v vs ws T IH|s f o v vs ws R J T IH|s f o vs S NS]; auto;
    cbn [bare lift map check_unsupported bind try]; fold (lift vs) (lift ws) (bare (lift vs)) (bare (lift ws)).
  - destruct (value_tag v) as [t|]; auto. ifs; auto; discriminate.
  - destruct R as [R _]. destruct v; try discriminate R; cbn [value_tag];
      match goal with |- context [contains_tag ?a ?b] => destruct (contains_tag a b) end;
      cbn [negb]; try discriminate; exact IH.
Qed.

Lemma update_silent ds vs : forall o rs, Silent o vs ->
  update_page_loop ds (bare (lift vs)) rs = Val (rs, Ok tt).
Proof.
  induction vs as [|v vs IH]; auto. intros o rs H.
  cbn [bare lift map update_page_loop bind try]; fold (lift vs) (bare (lift vs)).
  destruct v; cbn [Silent] in H; try contradiction; auto; eauto. destruct H as [_ H]. eauto.
Qed.

Lemma update_trim ds s f o vs ws : Trimmed s f o vs ws -> forall rs rs',
  update_page_loop ds (bare (lift vs)) rs = Val (rs', Ok tt) ->
  update_page_loop ds (bare (lift ws)) rs = Val (rs', Ok tt).
Proof.
  induction 1 as [s f o v vs ws T IH|s f o v vs ws R J T IH|s f o vs S NS]; intros rs rs' H.
  - cbn [bare lift map update_page_loop bind try] in *; fold (lift vs) (lift ws) (bare (lift vs)) (bare (lift ws)) in *.
    destruct v; auto.
    + destruct (set_background (rs_ctx rs) c (VColorBackground c)) as [ctx [[]|]]; auto; discriminate.
    + destruct (set_background (rs_ctx rs) c (VPageBackground c)) as [ctx [[]|]]; auto; discriminate.
  - cbn [bare lift map update_page_loop bind try] in H; fold (lift vs) (bare (lift vs)) in H.
    destruct R as [R _]. destruct v; try discriminate R; auto.
  - rewrite (update_silent ds vs o rs S) in H. cbn. exact H.
Qed.

(** The page state keeps the settings. *)
Lemma update_Ag d s vs : forall rs rs' r, Ag d s rs ->
  update_page_loop (rs_new d) (bare (lift vs)) rs = Val (rs', r) -> Ag d s rs' /\ rs_span rs' = rs_span rs.
Proof.
  induction vs as [|v vs IH]; intros rs rs' r A H.
  - cbn in H. injection H as <- <-. auto.
  - cbn [bare lift map update_page_loop bind try] in H; fold (lift vs) (bare (lift vs)) in H.
    destruct v; eauto; try (injection H as <- <-; auto; fail).
    + destruct (set_background (rs_ctx rs) c (VColorBackground c)) as [ctx r'] eqn:E.
      assert (A' : Ag d s (set_ctx rs ctx)).
      { destruct A. constructor; auto. cbn. eapply set_bg_Ag; eauto. }
      destruct r'; [apply (IH _ _ _ A' H)|]. injection H as <- <-. auto.
    + destruct (set_background (rs_ctx rs) c (VPageBackground c)) as [ctx r'] eqn:E.
      assert (A' : Ag d s (set_ctx rs ctx)).
      { destruct A. constructor; auto. cbn. eapply set_bg_Ag; eauto. }
      destruct r'; [apply (IH _ _ _ A' H)|]. injection H as <- <-. auto.
    + match type of H with update_page_loop _ _ ?rs0 = _ =>
        assert (A' : Ag d s rs0) by agsame; destruct (IH _ _ _ A' H) as [X Y]; split; [exact X|exact Y] end.
Qed.

Lemma graphics_silent md d vs : forall o ctx raster r, Silent o vs ->
  render_graphics_loop md d (bare (lift vs)) ctx raster = Val (Ok r) -> r = raster.
Proof.
  induction vs as [|v vs IH]; intros o ctx raster r S H.
  - cbn in H. now injection H as <-.
  - cbn [bare lift map render_graphics_loop bind try] in H; fold (lift vs) (bare (lift vs)) in H.
    destruct v; cbn [Silent] in S; try contradiction; eauto.
    + destruct (set_foreground ctx c (VColorForeground c)) as [ctx' [[]|]]; [|discriminate H]. cbn [bind try] in H. eauto.
    + destruct S as [_ S]. eauto.
    + now injection H as <-.
Qed.

Lemma graphics_trim md d s f o vs ws : Trimmed s f o vs ws -> forall ctx raster r, AgC s ctx ->
  render_graphics_loop md d (bare (lift vs)) ctx raster = Val (Ok r) ->
  render_graphics_loop md d (bare (lift ws)) ctx raster = Val (Ok r).
Proof.
  induction 1 as [s f o v vs ws T IH|s f o v vs ws R J T IH|s f o vs S NS]; intros ctx raster r A H.
  - cbn [bare lift map render_graphics_loop bind try] in *; fold (lift vs) (lift ws) (bare (lift vs)) (bare (lift ws)) in *.
    destruct v; auto.
    + destruct (set_background ctx c (VColorBackground c)) as [ctx' r'] eqn:E.
      destruct r' as [[]|]; [|discriminate]. cbn [bind try] in *. apply IH; auto. eapply set_bg_Ag; eauto.
    + destruct (set_foreground ctx c (VColorForeground c)) as [ctx' [[]|]] eqn:E; [|discriminate]. cbn [bind try] in *.
      apply IH; auto. apply (set_fg_Ag s _ _ _ _ E).
    + match type of H with context [set_foreground ?a ?b ?c] => destruct (set_foreground a b c) as [ctx' [[]|]] end; [|discriminate].
      cbn [bind try] in *.
      match type of H with context [render_rect ?a ?b ?c ?e ?g] => destruct (render_rect a b c e g) as [[r'|]| |] end; try discriminate.
      cbn [bind try] in *. auto.
    + match goal with g : option (Z * Z * option Z) |- _ => destruct g as [[[x y] gid]|] end;
        (match type of H with context [get_graphic ?a ?b ?c] => destruct (get_graphic a b c) as [gr|] end; [|discriminate]);
        cbn [bind try] in *;
        (match type of H with context [map_err ?a ?b] => destruct (map_err a b) as [[r'|]| |] end; try discriminate);
        cbn [bind try] in *; auto.
  - cbn [bare lift map render_graphics_loop bind try] in H; fold (lift vs) (bare (lift vs)) in H.
    destruct R as [R R']. destruct v; try discriminate R; auto.
    apply IH; auto. rewrite (set_fg_redundant s ctx c _ A) in H; [exact H|].
    destruct s; cbn in R'. now injection R' as ->.
  - pose proof (graphics_silent md d vs o ctx raster r S H) as ->. reflexivity.
Qed.

(** ** Text rectangles *)

(** What an OFF page shows. *)
Definition SameFace (a b : RenderState) : Prop :=
  rs_on_time a = rs_on_time b /\ rs_off_time a = rs_off_time b /\ build_raster a = build_raster b.

Lemma SameFace_refl a : SameFace a a.
Proof. repeat split. Qed.
#[local] Hint Resolve SameFace_refl : core.

Lemma SameFace_trans a b c : SameFace a b -> SameFace b c -> SameFace a c.
Proof. intros (A & B & C) (D & E & F). split; [congruence|]. split; [congruence|]. now rewrite C. Qed.

Lemma same_face a b : rs_on_time a = rs_on_time b -> rs_off_time a = rs_off_time b -> rs_rect a = rs_rect b ->
  background_rgb (rs_ctx a) = background_rgb (rs_ctx b) -> SameFace a b.
Proof. intros H1 H2 H3 H4. split; [exact H1|]. split; [exact H2|]. unfold build_raster. now rewrite H3, H4. Qed.

Lemma same_background a b : bg_current a = bg_current b -> color_scheme a = color_scheme b ->
  fg_default a = fg_default b -> bg_default a = bg_default b -> background_rgb a = background_rgb b.
Proof.
  intros H1 H2 H3 H4. unfold background_rgb. rewrite H1, H4. rewrite (ctx_rgb_scheme a b); auto.
Qed.

(** The values left. *)
Definition Tail (P : Value -> Prop) (xs : Outcomes) : Prop := exists t, xs = lift t /\ Forall P t.

Lemma Tail_weak (P Q : Value -> Prop) xs : (forall v, P v -> Q v) -> Tail P xs -> Tail Q xs.
Proof. intros H (t & E & F). exists t. split; auto. eapply Forall_impl; eauto. Qed.
Lemma Tail_cons v vs xs : Tail (fun w => In w vs) xs -> Tail (fun w => In w (v :: vs)) xs.
Proof. apply Tail_weak. intros w. now right. Qed.
#[local] Hint Resolve Tail_cons : core.

Lemma rtr_silent md d po vs : forall o rs spans lb e, Silent o vs -> (o = true -> lb = false) ->
  a_rtr md d (rs_new d) po (lift vs) rs spans lb = Val e -> a_res e = Ok tt ->
  a_spans e = spans /\ (a_state e = done po \/ a_state e = new_page po) /\ SameFace (a_rs e) rs
  /\ Tail (fun v => In v vs) (a_rest e).
Proof.
  induction vs as [|v vs IH]; intros o rs spans lb e S O H R.
  - cbn in H. injection H as <-. cbn. splits; auto. exists []. auto.
  - cbn [lift map a_rtr bind] in H; fold (lift vs) in H.
    destruct v; cbn [Silent] in S; try contradiction.
    + destruct (set_foreground (rs_ctx rs) c (VColorForeground c)) as [ctx' [[]|]] eqn:E;
        [|injection H as <-; discriminate R].
      destruct (IH _ _ _ _ _ S O H R) as (X & Y & Z & W). splits; auto.
      destruct (set_fg_Ag settings0 _ _ _ _ E) as (_ & Q1 & Q2 & Q3 & Q4).
      eapply SameFace_trans; [exact Z|]. apply same_face; auto. cbn. now apply same_background.
    + destruct (IH _ _ _ _ _ S O H R) as (X & Y & Z & W). splits; auto.
    + match type of H with context [match ?j with _ => _ end] => destruct j as [[]|] end;
        try (injection H as <-; discriminate R); destruct (IH _ _ _ _ _ S O H R) as (X & Y & Z & W); splits; auto.
    + match type of H with context [VJustificationPage ?j] => destruct j as [[]|] end;
        try (injection H as <-; discriminate R);
        (match type of H with context [negb ?c] => destruct (negb c) end;
         destruct (IH _ _ _ _ _ S O H R) as (X & Y & Z & W); splits; auto).
    + destruct S as [-> S]. rewrite (O eq_refl) in H.
      match type of H with context [if ?c then _ else _] => destruct c end; [injection H as <-; discriminate R|].
      match type of H with context [chk8 ?a ?b] => destruct (chk8 a b) as [ln| |] end; try discriminate H.
      cbn [bind] in H. destruct (IH false _ _ _ _ S ltac:(discriminate) H R) as (X & Y & Z & W). splits; auto.
    + injection H as <-. cbn. splits; auto. apply Tail_cons. exists vs. split; auto. now apply Forall_forall.
    + match type of H with context [if ?c then _ else _] => destruct c end; [injection H as <-; discriminate R|].
      destruct (IH _ _ _ _ _ S O H R) as (X & Y & Z & W); splits; auto.
    + destruct (IH _ _ _ _ _ S O H R) as (X & Y & Z & W); splits; auto.
Qed.

(** How the trimmed run of a text rectangle ends. *)
Definition InStep (d : Dms) (e e' : AEnd) : Prop :=
  a_rs e' = a_rs e /\ a_state e' = a_state e
  /\ (a_state e = PsOn false -> rs_span (a_rs e) = 0)
  /\ exists s vs ws, a_rest e = lift vs /\ a_rest e' = lift ws /\ Trimmed s true false vs ws /\ Ag d s (a_rs e).
Definition Final (po : bool) (e e' : AEnd) : Prop :=
  a_state e' = done po /\ (a_state e = done po \/ a_state e = new_page po) /\ SameFace (a_rs e) (a_rs e')
  /\ Tail (fun v => ~ Shown v) (a_rest e).

Ltac sub_if H R := match type of H with context [if ?c then _ else _] => destruct c end; [injection H as <-; discriminate R|].

Lemma rtr_trim md d po s f o vs ws : Trimmed s f o vs ws -> forall rs spans lb e,
  Ag d s rs -> (f = true -> rs_span rs = 0) -> (o = true -> lb = false) ->
  a_rtr md d (rs_new d) po (lift vs) rs spans lb = Val e -> a_res e = Ok tt ->
  exists e', a_rtr md d (rs_new d) po (lift ws) rs spans lb = Val e' /\ a_res e' = Ok tt
    /\ a_spans e' = a_spans e /\ (InStep d e e' \/ Final po e e').
Proof.
  induction 1 as [s f o v vs ws T IH|s f o v vs ws R J T IH|s f o vs S NS]; intros rs spans lb e A F O H RO.
  - cbn [lift map a_rtr bind] in *; fold (lift vs) (lift ws) in *.
    destruct v; cbn [apply_setting fresh_after open_after] in *; try (apply IH; auto; fail).
    + destruct (set_foreground (rs_ctx rs) c (VColorForeground c)) as [ctx' [[]|]] eqn:E;
        [|injection H as <-; discriminate RO].
      apply IH; auto. destruct A. constructor; auto. cbn.
      apply (set_fg_Ag s _ _ _ _ E).
    + apply IH; auto. destruct A. constructor; auto.
    + destruct (is_charb c); [|injection H as <-; discriminate RO].
      match type of H with context [chk8 ?a ?b] => destruct (chk8 a b) as [ln| |] end; try discriminate H.
      cbn [bind] in *. apply IH; auto; try discriminate. agsame.
    + match type of H with context [match ?j with _ => _ end] => destruct j as [[]|] end;
        try (injection H as <-; discriminate RO); (apply IH; auto; destruct A; constructor; cbn; auto; split; discriminate).
    + match type of H with context [VJustificationPage ?j] => destruct j as [[]|] end;
        try (injection H as <-; discriminate RO);
        (match type of H with context [negb (jp_eqb ?a ?b)] => destruct (jp_eqb a b) eqn:E end; cbn [negb] in *;
          [apply jp_eqb_iff in E|];
         (apply IH; auto; destruct A; constructor; cbn in *; auto; try discriminate)).
    + sub_if H RO.
      match type of H with context [chk8 ?a ?b] => destruct (chk8 a b) as [ln| |] end; try discriminate H.
      cbn [bind] in *. apply IH; auto; try discriminate. agsame.
    + injection H as <-. eexists. splits; [reflexivity|auto|auto|]. left. unfold InStep. cbn. splits; auto.
      * destruct po; discriminate.
      * exists s, vs, ws. splits; auto.
    + sub_if H RO. apply IH; auto. agsame.
    + apply IH; auto. agsame.
    + match type of H with context [chk8 ?a ?b] => destruct (chk8 a b) as [ln| |] end; try discriminate H.
      cbn [bind] in *. apply IH; auto; try discriminate. agsame.
    + match type of H with context [update_text_rectangle ?a ?b ?c ?e] => destruct (update_text_rectangle a b c e) as [[r'|]| |] end;
        try discriminate H; cbn [bind] in *; [|injection H as <-; discriminate RO].
      injection H as <-. eexists. splits; [reflexivity|auto|auto|]. left. unfold InStep. cbn. splits; auto.
      exists s, vs, ws. splits; auto. agsame.
  - cbn [lift map a_rtr bind] in H; fold (lift vs) in H.
    destruct R as [R R']. destruct v; try discriminate R; cbn [apply_setting] in R'.
    + rewrite (set_fg_redundant s _ c _ (ag_c _ _ _ A)) in H by (destruct s; cbn in R'; now injection R' as ->).
      apply IH; auto. replace (set_ctx rs (rs_ctx rs)) with rs in H by now destruct rs. exact H.
    + apply IH; auto.
      match type of R' with mkSet _ ?x _ _ = _ => assert (E : x = s_fo s) by (destruct s; cbn in R'; now injection R' as ->); subst x end.
      rewrite <- (ag_f _ _ _ A), <- (ag_v _ _ _ A) in H.
      replace (set_font rs (rs_font rs) (rs_font_vid rs)) with rs in H by now destruct rs. exact H.
    + apply IH; auto. specialize (J _ eq_refl). specialize (F J).
      match type of R' with mkSet _ _ ?x _ = _ => assert (E : x = s_jl s) by (destruct s; cbn in R'; now injection R' as ->); subst x end.
      destruct A as [C FO V JL [JX1 JX2] JP JPX].
      assert (Q : a_rtr md d (rs_new d) po (lift vs) (set_span (set_jl rs (rs_jl rs)) 0) spans lb = Val e).
      { rewrite JL. destruct (s_jl s) as [[]|]; try congruence; exact H. }
      replace (set_span (set_jl rs (rs_jl rs)) 0) with rs in Q by (destruct rs; cbn in *; now subst). exact Q.
    + apply IH; auto.
      match type of R' with mkSet _ _ _ ?x = _ => assert (E : x = s_jp s) by (destruct s; cbn in R'; now injection R' as ->); subst x end.
      destruct A as [C FO V JL JX JP JPX].
      assert (E : forall j, jp_eqb j j = true) by (intros j; now apply jp_eqb_iff).
      destruct (s_jp s) as [[]|]; try congruence; rewrite JP, E in H; exact H.
  - destruct (rtr_silent md d po vs o rs spans lb e S O H RO) as (X & Y & Z & W).
    exists (mkA rs (done po) [] spans (Ok tt)). splits; auto. right. unfold Final. cbn. splits; auto.
    eapply Tail_weak; [|exact W]. now apply Forall_forall.
Qed.

(** ** Pages *)

Definition PStep (d : Dms) (p q : AP) : Prop :=
  ap_rs q = ap_rs p /\ ap_state q = ap_state p
  /\ exists s vs ws, ap_rest p = lift vs /\ ap_rest q = lift ws /\ Trimmed s true false vs ws /\ Ag d s (ap_rs p).
Definition PEnd (p q : AP) : Prop :=
  Tail (fun v => ~ Shown v) (ap_rest p)
  /\ (ap_state q = PsDone
      \/ (ap_state q = PsOff false /\ (exists m, ap_state p = PsOff m) /\ SameFace (ap_rs p) (ap_rs q))).

Definition stop_state (st : PageState) : Prop := st <> PsOn false.

Lemma loop_trim md d fuel : forall n s vs ws rs raster p' raster',
  Trimmed s true false vs ws -> Ag d s rs -> rs_span rs = 0 ->
  a_page_loop md d fuel n (mkAP rs (PsOn false) (lift vs)) raster = Val (p', Ok raster') ->
  exists q', a_page_loop md d fuel n (mkAP rs (PsOn false) (lift ws)) raster = Val (q', Ok raster')
    /\ rs_on_time (ap_rs q') = rs_on_time (ap_rs p') /\ (PStep d p' q' \/ PEnd p' q').
Proof.
  induction fuel as [|fuel IH]; intros n s vs ws rs raster p' raster' T A SP H; [discriminate H|].
  cbn [a_page_loop ap_state ap_rest ap_rs] in *.
  destruct (render_graphics_loop md d (bare (lift vs)) (rs_ctx rs) raster) as [[r1|]| |] eqn:EG; try discriminate H.
  rewrite (graphics_trim md d _ _ _ _ _ T _ _ _ (ag_c _ _ _ A) EG). cbn [bind] in *.
  unfold a_text_rect in *. cbn [ap_rs ap_rest] in *.
  destruct (a_rtr md d (rs_new d) (0 <? rs_off_time rs) (lift vs) rs [] true) as [e| |] eqn:ER; try discriminate H.
  cbn [bind] in H. destruct (a_res e) as [[]|] eqn:ERes; [|discriminate H].
  destruct (rtr_trim md d _ _ _ _ _ _ T rs [] true e A (fun _ => SP) ltac:(discriminate) ER ERes)
    as (e' & ER' & ERes' & ES & HE).
  rewrite ER'. cbn [bind]. rewrite ERes', ES.
  destruct (render_text_spans md d (a_spans e) r1) as [[r2|]| |] eqn:ET; try discriminate H.
  cbn [bind] in *. cbv zeta in *. destruct (MAX_TEXT_RECTANGLES <? n + 1); [discriminate H|].
  destruct HE as [(E1 & E2 & E3 & s' & vs' & ws' & E4 & E5 & T' & A')|(E1 & E2 & E3 & E4)].
  - rewrite E1, E2, E4, E5 in *. destruct (a_state e) as [[]|m|] eqn:EST.
    + destruct fuel as [|fuel]; [discriminate H|]. cbn [a_page_loop ap_state] in *. injection H as <- <-.
      eexists. split; [reflexivity|]. cbn. split; auto. left. unfold PStep. cbn. splits; auto.
      exists s', vs', ws'. splits; auto.
    + apply (IH _ _ _ _ _ _ _ _ T' A' (E3 eq_refl) H).
    + destruct fuel as [|fuel]; [discriminate H|]. cbn [a_page_loop ap_state] in *. injection H as <- <-.
      eexists. split; [reflexivity|]. cbn. split; auto. left. unfold PStep. cbn. splits; auto.
      exists s', vs', ws'. splits; auto.
    + destruct fuel as [|fuel]; [discriminate H|]. cbn [a_page_loop ap_state] in *. injection H as <- <-.
      eexists. split; [reflexivity|]. cbn. split; auto. left. unfold PStep. cbn. splits; auto.
      exists s', vs', ws'. splits; auto.
  - destruct fuel as [|fuel]; [discriminate H|]. cbn [a_page_loop ap_state] in *. rewrite E1.
    assert (X : Val (mkAP (a_rs e) (a_state e) (a_rest e), @Ok (Raster rgb) SyntaxError r2) = Val (p', Ok raster')).
    { rewrite <- H. destruct (0 <? rs_off_time rs), E2 as [-> | ->]; reflexivity. }
    injection X as <- <-. exists (mkAP (a_rs e') (done (0 <? rs_off_time rs)) (a_rest e')). split; [destruct (0 <? rs_off_time rs); reflexivity|]. cbn.
    destruct E3 as (Y1 & Y2 & Y3). split; auto. right. unfold PEnd. cbn. split; [exact E4|].
    destruct (0 <? rs_off_time rs); cbn in *; [|auto]. right. split; auto. split.
    + destruct E2 as [-> | ->]; eauto.
    + repeat split; auto.
Qed.

Lemma on_page_trim md d p q p' pg : PStep d p q ->
  a_on_page md d p = Val (p', Ok pg) ->
  exists q', a_on_page md d q = Val (q', Ok pg) /\ (PStep d p' q' \/ PEnd p' q').
Proof.
  intros (E1 & E2 & s & vs & ws & E3 & E4 & T & A) H. unfold a_on_page in *. cbv zeta in *.
  rewrite E1, E2, E3, E4 in *.
  destruct (check_unsupported d (bare (lift vs))) as [[[]|]| |] eqn:EC; try discriminate H.
  rewrite (check_trim d _ _ _ _ _ T EC). cbn [bind] in *. unfold update_page_state in *. cbv zeta in *.
  match type of H with context [update_page_loop _ _ ?r] => assert (A' : Ag d s r) by agsame; set (rs0 := r) in * end.
  assert (SP0 : rs_span rs0 = 0) by reflexivity.
  destruct (update_page_loop (rs_new d) (bare (lift vs)) rs0) as [[rs1 [[]|]]| |] eqn:EU; try discriminate H.
  rewrite (update_trim _ _ _ _ _ _ T _ _ EU). cbn [bind] in *.
  destruct (update_Ag d s vs _ _ _ A' EU) as [A1 SP]. rewrite SP0 in SP.
  destruct (a_page_loop md d 52 0 (mkAP rs1 (PsOn false) (lift vs)) (build_raster rs1)) as [[p1 [r1|]]| |] eqn:EL;
    try discriminate H.
  cbn [bind] in H. injection H as <- <-.
  destruct (loop_trim md d _ _ _ _ _ _ _ _ _ T A1 SP EL) as (q' & EQ & ET & HP).
  rewrite EQ. cbn [bind]. rewrite ET. eauto.
Qed.

Lemma Tail_all (P : Value -> Prop) xs : Tail P xs -> Proofs_Each.all_of P xs.
Proof.
  intros (t & -> & F) v I. apply in_map_iff in I as (w & E & I). injection E as ->.
  rewrite Forall_forall in F. auto.
Qed.

Lemma take_trim md d n : forall p q ps, PStep d p q \/ PEnd p q -> a_take md d n p = Val (map Ok ps) ->
  exists ps' ps'', ps = ps' ++ ps'' /\ a_take md d n q = Val (map Ok ps')
    /\ (Spec_Layout.Built d -> Spec_Page.BlankSpaces d -> Forall (fun P => OneColour (pg_raster P)) ps'').
Proof.
  induction n as [|n IH]; intros p q ps HP H.
  - exists [], ps. splits; auto. destruct ps; [auto|discriminate H].
  - pose proof H as H0. cbn [a_take] in H |- *. unfold a_next in H |- *. destruct HP as [HP|HP].
    + pose proof HP as HP0. destruct HP as (E1 & E2 & E3). rewrite E2.
      destruct (ap_state p) as [m|m|] eqn:EST.
      * destruct (a_on_page md d p) as [[p' [pg|er]]| |] eqn:EP; try discriminate H; cbn [bind snd fst] in H.
        -- destruct (a_take md d n p') as [l| |] eqn:ETK; try discriminate H. cbn [bind] in H.
           destruct ps as [|pg' ps]; [discriminate H|]. injection H as -> ->.
           destruct (on_page_trim md d p q p' pg' HP0 EP) as (q' & EQ & HQ).
           destruct (IH _ _ _ HQ ETK) as (ps' & ps'' & -> & EK & EB).
           exists (pg' :: ps'), ps''. splits; auto. rewrite EQ. cbn [bind snd fst]. rewrite EK. reflexivity.
        -- destruct (a_take md d n p') as [l| |]; try discriminate H. destruct ps; discriminate H.
      * cbn [bind] in *. rewrite E1.
        match type of H with context [a_take md d n ?x] => set (p' := x) in * end.
        destruct (a_take md d n p') as [l| |] eqn:ETK; try discriminate H. cbn [bind] in H.
        destruct ps as [|pg' ps]; [discriminate H|]. injection H as <- ->.
        match goal with |- context [a_take md d n ?x] => set (q' := x) end.
        assert (HQ : PStep d p' q').
        { unfold PStep, p', q'. cbn. splits; auto. }
        destruct (IH _ _ _ (or_introl HQ) ETK) as (ps' & ps'' & -> & EK & EB).
        exists (mkPage (build_raster (ap_rs p)) (rs_off_time (ap_rs p)) :: ps'), ps''. splits; auto. rewrite EK. reflexivity.
      * exists [], ps. splits; auto. destruct ps; [auto|discriminate H].
    + destruct HP as [HT [E|(E & (m & EM) & (F1 & F2 & F3))]].
      * exists [], ps. rewrite E. splits; auto. intros HB HS.
        apply (Proofs_Tail.take_blank md d (S n) HB HS p); auto. now apply Tail_all.
      * rewrite E, EM in *. cbn [bind] in *.
        match type of H with context [a_take md d n ?x] => set (p' := x) in * end.
        destruct (a_take md d n p') as [l| |] eqn:ETK; try discriminate H. cbn [bind] in H.
        destruct ps as [|pg' ps]; [discriminate H|]. injection H as <- ->.
        match goal with |- context [a_take md d n ?x] => set (q' := x) end.
        destruct (IH p' q' ps) as (ps' & ps'' & -> & EK & EB); [right; split; [exact HT|left; reflexivity]|exact ETK|].
        exists (mkPage (build_raster (ap_rs p)) (rs_off_time (ap_rs p)) :: ps'), ps''. splits; auto. rewrite EK.
        rewrite F2, F3. reflexivity.
Qed.

Lemma lift_map vs : lift vs = map Val (map Ok vs).
Proof. unfold lift. now rewrite map_map. Qed.

Lemma yields_trim md d ms vs ms' ws ps : Meaning ms (map Ok vs) -> Meaning ms' (map Ok ws) ->
  Trimmed settings0 true false vs ws -> Yields md d ms (map Ok ps) ->
  exists ps' ps'', ps = ps' ++ ps'' /\ Yields md d ms' (map Ok ps')
    /\ (Spec_Layout.Built d -> Spec_Page.BlankSpaces d -> Forall (fun P => OneColour (pg_raster P)) ps'').
Proof.
  intros M1 M2 T (n & H & L).
  rewrite (take_start md d n ms (lift vs)) in H by (rewrite lift_map; now apply Reads_meaning).
  assert (P : PStep d (a_start d (lift vs)) (a_start d (lift ws))).
  { unfold PStep, a_start. cbn. splits; auto. exists settings0, vs, ws. splits; auto. apply Ag_new. }
  destruct (take_trim md d n _ _ ps (or_introl P) H) as (ps' & ps'' & -> & E & EB).
  exists ps', ps''. splits; auto. exists n. split.
  - rewrite (take_start md d n ms' (lift ws)); auto. rewrite lift_map. now apply Reads_meaning.
  - rewrite map_length in *. rewrite app_length in L. lia.
Qed.

(** ** Which messages are trimmed *)

Lemma settings_snoc a v : settings_after (a ++ [v]) = apply_setting v (settings_after a).
Proof. unfold settings_after. now rewrite fold_left_app. Qed.
Lemma fresh_snoc a v : fresh_at (a ++ [v]) = fresh_after v (fresh_at a).
Proof. unfold fresh_at. now rewrite fold_left_app. Qed.
Lemma open_snoc a v : open_at (a ++ [v]) = open_after v (open_at a).
Proof. unfold open_at. now rewrite fold_left_app. Qed.

Lemma dedup_app a b : forall s, dedup s (a ++ b) = dedup s a ++ dedup (fold_left (fun s v => apply_setting v s) a s) b.
Proof.
  induction a as [|v a IH]; auto. intros s. cbn [app dedup fold_left]. rewrite IH. now destruct (redundantb s v).
Qed.

Lemma strip_app_blank a b : ends_shown a -> Forall (fun v => value_is_blank v = true) b -> strip (a ++ b) = a.
Proof.
  intros HA HB. assert (E : strip b = []) by now apply strip_blank.
  destruct HA as [->|(l & v & -> & HV)]; [exact E|].
  rewrite <- app_assoc. induction l as [|w l IH]; cbn [app strip].
  - rewrite E. now rewrite HV.
  - cbn [app] in IH. rewrite IH. destruct l; reflexivity.
Qed.

Lemma dedup_ends a s : ends_shown a -> ends_shown (dedup s a).
Proof.
  intros [->|(l & v & -> & HV)]; [now left|]. right. rewrite dedup_app. cbn [dedup].
  match goal with |- context [redundantb ?x v] => destruct (redundantb x v) eqn:E end.
  - apply redundant_blank in E. congruence.
  - eauto.
Qed.

Lemma shown_split vs : Forall value_ok vs -> exists k t, vs = k ++ t /\ ends_shown k
  /\ Forall (fun v => value_is_blank v = true) t
  /\ (k = [] \/ exists k' v, k = k' ++ [v] /\ Shown v) /\ Forall (fun v => ~ Shown v) t.
Proof.
  intros O. destruct (strip_split vs) as (t & E & HT). exists (strip vs), t.
  assert (OE : Forall value_ok (strip vs ++ t)) by now rewrite <- E.
  apply Forall_app in OE. destruct OE as [O1 O2].
  splits; auto.
  - destruct (strip_last vs); unfold ends_shown; eauto.
  - destruct (strip_last vs) as [->|(l & v & X & HV)]; auto. right. exists l, v. split; auto.
    apply value_blank_iff in HV; auto. rewrite X in O1. apply Forall_app in O1. destruct O1 as [_ O1]. now inversion O1.
  - apply blank_iff_not_shown; auto.
Qed.

Lemma dedup_trimmed t : forall b a, JlRegular (a ++ b ++ t) -> Exists Shown b \/ b = [] ->
  (b <> [] -> exists b' v, b = b' ++ [v] /\ Shown v) ->
  Silent (open_at (a ++ b)) t -> Forall (fun v => ~ Shown v) t ->
  Trimmed (settings_after a) (fresh_at a) (open_at a) (b ++ t) (dedup (settings_after a) b).
Proof.
  induction b as [|v b IH]; intros a J X Y S NS.
  - cbn [app dedup]. rewrite app_nil_r in S. now constructor.
  - assert (Y' : b <> [] -> exists b' v, b = b' ++ [v] /\ Shown v).
    { intros N. destruct (Y ltac:(discriminate)) as (b' & w & E & HW). destruct b' as [|w' b'].
      - injection E as -> ->. congruence.
      - injection E as <- ->. eauto. }
    assert (X' : Exists Shown b \/ b = []).
    { destruct b as [|w b]; auto. left. destruct (Y' ltac:(discriminate)) as (b' & u & -> & HU).
      apply Exists_app. auto. }
    assert (Q : Trimmed (settings_after (a ++ [v])) (fresh_at (a ++ [v])) (open_at (a ++ [v])) (b ++ t) (dedup (settings_after (a ++ [v])) b)).
    { apply IH; auto; rewrite <- app_assoc; auto. }
    rewrite settings_snoc, fresh_snoc, open_snoc in Q.
    cbn [app dedup]. cbv zeta. destruct (redundantb (settings_after a) v) eqn:E; [|now constructor].
    pose proof E as E'. apply redundantb_iff in E. destruct E as [E1 E2].
    assert (F : forall j, v = VJustificationLine j -> fresh_at a = true).
    { intros j ->. apply (J a j (b ++ t)); auto; [split; auto|]. apply Exists_app. left.
      destruct X' as [X'| ->]; auto. destruct (Y ltac:(discriminate)) as (b' & w & EB & HW).
      destruct b'; [|destruct b'; discriminate EB]. injection EB as <-. inversion HW. }
    rewrite E2 in *. apply Tr_same; [split; auto|auto|].
    destruct v; try discriminate E1; cbn [fresh_after open_after] in Q; auto.
    now rewrite (F _ eq_refl).
Qed.

Lemma trimmed_nvals vs : Forall value_ok vs -> JlRegular vs -> TailSilent vs ->
  Trimmed settings0 true false vs (nvals vs).
Proof.
  intros O J S. destruct (shown_split vs O) as (k & t & E & HK & HT & HK' & HT').
  unfold nvals. subst vs. rewrite dedup_app, strip_app_blank.
  - apply (dedup_trimmed t k []); auto.
    + destruct HK' as [->|(k' & v & -> & HV)]; auto. left. apply Exists_app. auto.
    + intros N. destruct HK' as [->|(k' & v & -> & HV)]; [congruence|eauto].
  - now apply dedup_ends.
  - apply Forall_forall. intros x I. apply dedup_incl in I. rewrite Forall_forall in HT. auto.
Qed.

(** No texts are joined. *)
Fixpoint unjoined (vs : list Value) : Prop :=
  match vs with
  | VText t :: ((VText u :: _) as r) => ~ (plain t /\ plain u) /\ unjoined r
  | _ :: r => unjoined r
  | [] => True
  end.

Lemma merge_unjoined vs : unjoined vs -> merge vs = vs.
Proof.
  induction vs as [|v vs IH]; auto. intros H.
  assert (H' : unjoined vs) by (destruct v; auto; destruct vs as [|[]]; auto; apply H).
  specialize (IH H'). destruct v; cbn [merge]; rewrite ?IH; auto.
  destruct vs as [|[]]; auto. destruct H as [H _].
  destruct (plain_text t && plain_text t0) eqn:E; auto. exfalso. apply H.
  apply andb_prop in E. now rewrite !plain_text_iff in E.
Qed.


Lemma unjoined_intro vs :
  (forall p t u q, vs = p ++ VText t :: VText u :: q -> ~ (plain t /\ plain u)) -> unjoined vs.
Proof.
  induction vs as [|v vs IH]; intros H; [exact I|].
  assert (H' : unjoined vs) by (apply IH; intros p t u q ->; apply (H (v :: p) t u q eq_refl)).
  destruct v; auto. destruct vs as [|[]]; auto. split; auto. apply (H [] _ _ vs eq_refl).
Qed.

Lemma dedup_next b : forall s u q, dedup s b = VText u :: q ->
  exists m c, b = m ++ VText u :: c /\ Forall (Redundant s) m.
Proof.
  induction b as [|v b IH]; intros s u q H; [discriminate H|]. cbn [dedup] in H. cbv zeta in H.
  destruct (redundantb s v) eqn:E.
  - apply redundantb_iff in E. pose proof E as [_ E2]. rewrite E2 in H.
    destruct (IH _ _ _ H) as (m & c & -> & F). exists (v :: m), c. split; auto.
  - injection H as -> _. exists [], b. split; auto.
Qed.

Lemma dedup_pair b : forall s p t u q, dedup s b = p ++ VText t :: VText u :: q ->
  exists a m c, b = a ++ VText t :: m ++ VText u :: c
    /\ Forall (Redundant (fold_left (fun s v => apply_setting v s) a s)) m.
Proof.
  induction b as [|v b IH]; intros s p t u q H; [destruct p; discriminate H|]. cbn [dedup] in H. cbv zeta in H.
  destruct (redundantb s v).
  - destruct (IH _ _ _ _ _ H) as (a & m & c & -> & F). exists (v :: a), m, c. split; auto.
  - destruct p as [|w p].
    + injection H as -> H. cbn [apply_setting] in H. destruct (dedup_next _ _ _ _ H) as (m & c & -> & F).
      exists [], m, c. split; auto.
    + injection H as <- H. destruct (IH _ _ _ _ _ H) as (a & m & c & -> & F). exists (v :: a), m, c. split; auto.
Qed.

Lemma nvals_unjoined vs : Forall value_ok vs -> TextsApart vs -> unjoined (nvals vs).
Proof.
  intros O TA. destruct (shown_split vs O) as (k & tl & E & HK & HT & HK' & _).
  unfold nvals. subst vs. rewrite dedup_app, strip_app_blank.
  - apply unjoined_intro. intros p t u q H [Pt Pu].
    destruct (dedup_pair _ _ _ _ _ _ H) as (a & m & c & -> & F).
    apply (TA a t m u (c ++ tl)); auto.
    + rewrite <- !app_assoc. cbn [app]. rewrite <- !app_assoc. reflexivity.
    + destruct HK' as [N|(k' & v & N & HV)]; [destruct a; discriminate N|].
      assert (I : c = [] \/ exists c' w, c = c' ++ [w]).
      { destruct c as [|x c _] using rev_ind; eauto. }
      destruct I as [->|(c' & w & ->)].
      * replace (a ++ VText t :: m ++ [VText u]) with ((a ++ VText t :: m) ++ [VText u]) in N by (rewrite <- app_assoc; reflexivity).
        apply app_inj_tail in N. destruct N as [_ ->]. now constructor.
      * replace (a ++ VText t :: m ++ VText u :: c' ++ [w]) with ((a ++ VText t :: m ++ VText u :: c') ++ [w]) in N
          by (rewrite <- !app_assoc; cbn [app]; rewrite <- !app_assoc; reflexivity).
        apply app_inj_tail in N. destruct N as [_ ->]. constructor 2. apply Exists_app. left. apply Exists_app. auto.
  - now apply dedup_ends.
  - apply Forall_forall. intros x I. apply dedup_incl in I. rewrite Forall_forall in HT. auto.
Qed.

Lemma normalize_same md d ms vs s ps : Meaning ms (map Ok vs) -> Forall small_hex vs ->
  JlRegular vs -> TextsApart vs -> TailSilent vs ->
  normalize md ms = Val s -> Yields md d ms (map Ok ps) ->
  exists ps' ps'', ps = ps' ++ ps'' /\ Yields md d s (map Ok ps')
    /\ (Spec_Layout.Built d -> Spec_Page.BlankSpaces d -> Forall (fun P => OneColour (pg_raster P)) ps'').
Proof.
  intros M H J TA TS N Y. pose proof (Meaning_oks_ok _ _ M) as O.
  assert (M' : Meaning s (map Ok (nvals vs))).
  { pose proof (normalize_meaning md ms (map Ok vs) s M) as X. rewrite oks_map_Ok in X. specialize (X H N).
    rewrite merge_unjoined in X; auto. now apply nvals_unjoined. }
  apply (yields_trim md d ms vs s (nvals vs) ps M M'); auto. now apply trimmed_nvals.
Qed.

Lemma tail_silent_intro vs : Forall value_ok vs ->
  Silent (open_at (strip vs)) (skipn (List.length (strip vs)) vs) -> TailSilent vs.
Proof.
  intros O H k t -> HK HT. apply Forall_app in O. destruct O as [O1 O2].
  assert (E : strip (k ++ t) = k).
  { apply strip_app_blank; [|now apply blank_iff_not_shown].
    destruct HK as [->|(k' & v & -> & HV)]; [now left|]. right. exists k', v. split; auto.
    apply value_blank_iff; auto. apply Forall_app in O1. destruct O1 as [_ O1]. now inversion O1. }
  rewrite E in H. rewrite skipn_app, skipn_all, Nat.sub_diag in H. exact H.
Qed.
