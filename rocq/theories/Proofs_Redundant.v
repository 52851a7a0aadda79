(** Tags that set what is already in force. *)

From Coq Require Import String Lia ZifyBool.
From Verif Require Import Base Str Multi Color Raster Font Graphic Config Sign Render
  Spec_Multi Spec_Color Spec_Sign Spec_Render Spec_Layout Spec_Page Spec_Redundant
  Proofs_Str Proofs_Split Proofs_Norm Proofs_Iter Proofs_Machine Proofs_Reach Proofs_Pages Proofs_Each Proofs_Fail Proofs_Follow.
Open Scope list_scope.

Section Sign.
Variable d : Dms.

(** ** Settings *)

Lemma rgb_same s fd fc bd bc fc' bc' c : ctx_rgb (mkCtx s fd fc bd bc) c = ctx_rgb (mkCtx s fd fc' bd bc') c.
Proof. unfold ctx_rgb. cbn [color_scheme]. destruct s, c; reflexivity. Qed.

Definition FgInv (past : list Value) (ctx : ColorCtx) : Prop :=
  match in_force fg_tag None past with
  | Some c => fg_current ctx = c /\ ctx_rgb ctx c <> None
  | None => fg_current ctx = color_of_rgb (fg_default ctx)
  end.
Definition BgInv (past : list Value) (ctx : ColorCtx) : Prop :=
  match in_force bg_tag None past with
  | Some c => bg_current ctx = c /\ ctx_rgb ctx c <> None
  | None => bg_current ctx = color_of_rgb (bg_default ctx)
  end.

Lemma in_force_snoc {A} (f : Value -> option A) x past v :
  in_force f x (past ++ [v]) = match f v with Some y => y | None => in_force f x past end.
Proof. rewrite in_force_app. reflexivity. Qed.

Lemma fg_again past ctx v : FgInv past ctx -> set_foreground ctx (in_force fg_tag None past) v = (ctx, Ok tt).
Proof.
  unfold FgInv, set_foreground. destruct ctx as [s fd fc bd bc]. cbn [fg_current fg_default]. destruct (in_force _ _ _) as [c|].
  - intros [-> H]. destruct (ctx_rgb _ c); [reflexivity|congruence].
  - intros ->. reflexivity.
Qed.

Lemma bg_again past ctx v : BgInv past ctx -> set_background ctx (in_force bg_tag None past) v = (ctx, Ok tt).
Proof.
  unfold BgInv, set_background. destruct ctx as [s fd fc bd bc]. cbn [bg_current bg_default]. destruct (in_force _ _ _) as [c|].
  - intros [-> H]. destruct (ctx_rgb _ c); [reflexivity|congruence].
  - intros ->. reflexivity.
Qed.

Lemma fg_set ctx o v ctx' u : set_foreground ctx o v = (ctx', Ok u) ->
  (forall past, FgInv (past ++ [VColorForeground o]) ctx') /\ (forall past, BgInv past ctx -> BgInv past ctx').
Proof.
  unfold set_foreground, FgInv, BgInv. destruct ctx as [s fd fc bd bc]. cbn [color_scheme fg_default bg_default bg_current].
  intros H. split; intros past; [rewrite in_force_snoc; cbn [fg_tag]|]; destruct o as [c|].
  - destruct (ctx_rgb _ c) eqn:E; [|discriminate]. injection H as <- _. split; [reflexivity|].
    rewrite (rgb_same _ _ _ _ _ fc bc), E. discriminate.
  - injection H as <- _. reflexivity.
  - destruct (ctx_rgb _ c) eqn:E; [|discriminate]. injection H as <- _. destruct (in_force _ _ _) as [c0|]; auto.
  - injection H as <- _. destruct (in_force _ _ _) as [c0|]; auto.
Qed.

Lemma bg_set ctx o v ctx' u : set_background ctx o v = (ctx', Ok u) ->
  (forall past w, bg_tag w = Some o -> BgInv (past ++ [w]) ctx') /\ (forall past, FgInv past ctx -> FgInv past ctx').
Proof.
  unfold set_background, FgInv, BgInv. destruct ctx as [s fd fc bd bc]. cbn [color_scheme fg_default bg_default fg_current].
  intros H. split; [intros past w Hw; rewrite in_force_snoc, Hw|intros past]; destruct o as [c|].
  - destruct (ctx_rgb _ c) eqn:E; [|discriminate]. injection H as <- _. split; [reflexivity|].
    rewrite (rgb_same _ _ _ _ _ fc bc), E. discriminate.
  - injection H as <- _. reflexivity.
  - destruct (ctx_rgb _ c) eqn:E; [|discriminate]. injection H as <- _. destruct (in_force _ _ _) as [c0|]; auto.
  - injection H as <- _. destruct (in_force _ _ _) as [c0|]; auto.
Qed.

(** Settings of text, and of the page. *)
Definition TI (past : list Value) (rs : RenderState) : Prop :=
  FgInv past (rs_ctx rs) /\ (rs_font rs, rs_font_vid rs) = font_of d past /\ rs_jp rs = jp_of d past
  /\ rs_char_spacing rs = in_force says_spacing None past
  /\ (forall n, in_force says_spacing None past = Some n -> (0 <? char_width d) && (0 <? n) = false).
Definition PI (past : list Value) (rs : RenderState) : Prop :=
  BgInv past (rs_ctx rs) /\ (rs_on_time rs, rs_off_time rs) = times_of d past.

Lemma TI_start : TI [] (rs_new d) /\ PI [] (rs_new d).
Proof. unfold TI, PI, FgInv, BgInv. cbn. splits; auto. discriminate. Qed.

(** Values up to the next page break. *)
Fixpoint upto_np (vs : list Value) : list Value :=
  match vs with [] => [] | VNewPage :: _ => [] | v :: r => v :: upto_np r end.

(** Neither kind of setting. *)
Lemma TI_other past rs v rs' : TI past rs -> fg_tag v = None -> says_font d v = None -> says_jp d v = None -> says_spacing v = None ->
  rs_ctx rs' = rs_ctx rs -> rs_font rs' = rs_font rs -> rs_font_vid rs' = rs_font_vid rs -> rs_jp rs' = rs_jp rs ->
  rs_char_spacing rs' = rs_char_spacing rs -> TI (past ++ [v]) rs'.
Proof.
  intros (A1 & A2 & A3 & A4 & A5) E1 E2 E3 E4 F1 F2 F3 F4 F5. unfold TI, FgInv, font_of, jp_of. rewrite !in_force_snoc, E1, E2, E3, E4, F1, F2, F3, F4, F5.
  splits; auto.
Qed.

Lemma PI_other past rs v rs' : PI past rs -> bg_tag v = None -> says_times d v = None ->
  rs_ctx rs' = rs_ctx rs -> rs_on_time rs' = rs_on_time rs -> rs_off_time rs' = rs_off_time rs -> PI (past ++ [v]) rs'.
Proof.
  intros (A1 & A2) E1 E2 F1 F2 F3. unfold PI, BgInv, times_of. rewrite !in_force_snoc, E1, E2, F1, F2, F3. auto.
Qed.

(** ** The three passes *)

Lemma update_pad past vs ws : Padded d past vs ws -> forall rs, PI past rs ->
  update_page_loop (rs_new d) (bare (okv vs)) rs = update_page_loop (rs_new d) (bare (okv ws)) rs
  /\ forall rs', update_page_loop (rs_new d) (bare (okv vs)) rs = Val (rs', Ok tt) ->
       PI (past ++ upto_np vs) rs' /\ forall P, TI P rs -> TI P rs'.
Proof.
  induction 1 as [past|past v vs ws H IH|past v vs ws HR H IH]; intros rs HP.
  - split; [reflexivity|]. cbn. intros rs' [= <-]. rewrite app_nil_r. auto.
  - cbn [okv map bare update_page_loop bind]. fold (okv vs) (okv ws). fold (bare (okv vs)) (bare (okv ws)).
    assert (go : forall rs1, PI (past ++ [v]) rs1 -> (forall P, TI P rs -> TI P rs1) -> upto_np (v :: vs) = v :: upto_np vs ->
      update_page_loop (rs_new d) (bare (okv vs)) rs1 = update_page_loop (rs_new d) (bare (okv ws)) rs1
      /\ forall rs', update_page_loop (rs_new d) (bare (okv vs)) rs1 = Val (rs', Ok tt) ->
           PI (past ++ upto_np (v :: vs)) rs' /\ forall P, TI P rs -> TI P rs').
    { intros rs1 H1 H2 EU. destruct (IH rs1 H1) as [I1 I2]. split; auto. intros rs' E. destruct (I2 rs' E) as [J1 J2].
      rewrite EU. rewrite <- app_assoc in J1. auto. }
    pose proof (PI_other past rs v) as PO.
    destruct v; try (apply go; auto; fail).
    + destruct (set_background _ _ _) as [c0 [u|e]] eqn:E; [|split; [reflexivity|discriminate]]. destruct (bg_set _ _ _ _ _ E) as [B1 B2].
      apply go; auto.
      * split; [apply B1; reflexivity|]. unfold times_of. rewrite in_force_snoc. apply HP.
      * intros P (A1 & A2). split; auto.
    + cbn. split; [reflexivity|]. intros rs' [= <-]. rewrite app_nil_r. auto.
    + destruct (set_background _ _ _) as [c0 [u|e]] eqn:E; [|split; [reflexivity|discriminate]]. destruct (bg_set _ _ _ _ _ E) as [B1 B2].
      apply go; auto.
      * split; [apply B1; reflexivity|]. unfold times_of. rewrite in_force_snoc. apply HP.
      * intros P (A1 & A2). split; auto.
    + apply go; auto. split; [unfold BgInv; rewrite in_force_snoc; apply HP|]. unfold times_of. rewrite in_force_snoc. cbn. destruct on, off; reflexivity.
  - destruct (IH rs HP) as [I1 I2]. split; auto. rewrite I1. clear I1 I2 IH. cbn [okv map bare update_page_loop bind].
    fold (okv ws). fold (bare (okv ws)). destruct HR; auto.
    + rewrite (bg_again past) by apply HP. destruct rs; reflexivity.
    + destruct HP as [_ HP]. unfold times_of in H0. fold (times_of d past) in H0. rewrite H0 in HP. injection HP as E1 E2.
      replace (set_times rs _ _) with rs; [reflexivity|]. destruct rs; cbn in *. unfold set_times. cbn. destruct on, off; cbn in *; now subst.
Qed.

Lemma graphics_pad md past vs ws : Padded d past vs ws -> forall ctx raster, FgInv past ctx ->
  render_graphics_loop md d (bare (okv vs)) ctx raster = render_graphics_loop md d (bare (okv ws)) ctx raster.
Proof.
  assert (FO : forall past v ctx, fg_tag v = None -> FgInv past ctx -> FgInv (past ++ [v]) ctx).
  { intros p v ctx E. unfold FgInv. now rewrite in_force_snoc, E. }
  induction 1 as [past|past v vs ws H IH|past v vs ws HR H IH]; intros ctx raster HF; [reflexivity| |].
  - cbn [okv map bare render_graphics_loop try]. fold (okv vs) (okv ws). fold (bare (okv vs)) (bare (okv ws)).
    destruct v; auto.
    + destruct (set_background _ _ _) as [c0 [u|e]] eqn:E; cbn [try]; auto. destruct (bg_set _ _ _ _ _ E) as [B1 B2]. apply IH. auto.
    + destruct (set_foreground _ _ _) as [c0 [u|e]] eqn:E; cbn [try]; auto. destruct (fg_set _ _ _ _ _ E) as [B1 B2]. apply IH. auto.
    + destruct (set_foreground _ _ _) as [c0 [u|e]]; cbn [try]; auto. destruct (render_rect _ _ _ _ _) as [[q|e]| |]; cbn [try]; auto.
    + destruct p as [[[x y] i]|]; (destruct (get_graphic _ _ _) as [g|e]; cbn [try]; [|reflexivity]);
        (destruct (map_err _ _) as [[q|e]| |]; cbn [try]; auto).
  - rewrite (IH ctx raster HF). cbn [okv map bare render_graphics_loop try]. fold (okv ws). fold (bare (okv ws)).
    destruct HR; auto. now rewrite (fg_again past) by auto.
Qed.

Definition Known (vs ws : list Value) : Prop := Forall (Supports d) vs /\ Forall (Supports d) ws.

(** How a text rectangle ends. *)
Definition EndP (whole : list Value) (rs : RenderState) (e e' : AEnd) : Prop :=
  a_rs e = a_rs e' /\ a_state e = a_state e' /\ a_spans e = a_spans e' /\ a_res e = a_res e'
  /\ (forall P, PI P rs -> PI P (a_rs e))
  /\ (a_res e = Ok tt ->
      (exists po, a_state e = done po)
      \/ (exists po, a_state e = new_page po)
         /\ (exists r s, a_rest e = okv r /\ a_rest e' = okv s /\ Padded d (whole ++ [VNewPage]) r s /\ Known r s /\ TI (whole ++ [VNewPage]) (a_rs e))
      \/ a_state e = PsOn false
         /\ (exists P r s, a_rest e = okv r /\ a_rest e' = okv s /\ Padded d P r s /\ Known r s /\ TI P (a_rs e) /\ P ++ upto_np r = whole)).

Lemma text_pad md po past vs ws : Padded d past vs ws -> Known vs ws -> forall rs spans lb, TI past rs ->
  MRel (EndP (past ++ upto_np vs) rs) (a_rtr md d (rs_new d) po (okv vs) rs spans lb) (a_rtr md d (rs_new d) po (okv ws) rs spans lb).
Proof.
  induction 1 as [past|past v vs ws H IH|past v vs ws HR H IH]; intros HK rs spans lb HT.
  - cbn. unfold EndP. cbn. splits; auto. intros _. left. eauto.
  - assert (HK' : Known vs ws) by (destruct HK as [K1 K2]; inversion K1; inversion K2; split; assumption). specialize (IH HK').
    assert (go : forall rs1 sp b, TI (past ++ [v]) rs1 -> (forall P, PI P rs -> PI P rs1) -> upto_np (v :: vs) = v :: upto_np vs ->
      MRel (EndP (past ++ upto_np (v :: vs)) rs) (a_rtr md d (rs_new d) po (okv vs) rs1 sp b) (a_rtr md d (rs_new d) po (okv ws) rs1 sp b)).
    { intros rs1 sp b H1 H2 EU. specialize (IH rs1 sp b H1). rewrite EU. rewrite <- app_assoc in IH. cbn [app] in IH.
      destruct (a_rtr _ _ _ _ _ _ _ _) as [e| |], (a_rtr _ _ _ _ _ _ _ _) as [e'| |]; cbn in IH |- *; auto.
      unfold EndP in *. destruct IH as (X1 & X2 & X3 & X4 & X5 & X6). splits; auto. }
    assert (bad : forall st er, MRel (EndP (past ++ upto_np (v :: vs)) rs) (Val (mkA rs st (okv vs) spans (Err er))) (Val (mkA rs st (okv ws) spans (Err er)))).
    { intros. unfold EndP. cbn. splits; auto. discriminate. }
    pose proof (TI_other past rs v) as TO.
    cbn [okv map a_rtr bind]. fold (okv vs) (okv ws). cbv zeta.
    destruct v; try (apply go; auto; fail).
    + destruct (set_foreground _ _ _) as [c0 [u|e]] eqn:E.
      * destruct (fg_set _ _ _ _ _ E) as [B1 B2]. apply go; auto.
        -- destruct HT as (A1 & A2 & A3 & A4 & A5). unfold TI, font_of, jp_of. rewrite !in_force_snoc. cbn. splits; auto.
        -- intros P (P1 & P2). split; auto.
      * unfold EndP. cbn. splits; auto; [|discriminate]. intros P HP.
        assert (c0 = rs_ctx rs) as ->. { unfold set_foreground in E. destruct c; [|discriminate]. destruct (ctx_rgb _ _); [discriminate|]. now injection E. }
        destruct rs; exact HP.
    + apply go; auto. destruct HT as (A1 & A2 & A3 & A4 & A5). unfold TI, FgInv, font_of, jp_of. rewrite !in_force_snoc. cbn. splits; auto.
      destruct f as [[n w]|]; reflexivity.
    + destruct (is_charb c); [|apply bad]. destruct (chk8 _ _); cbn [bind]; try exact I. apply go; auto.
    + destruct j as [[]|]; try apply bad; (apply go; auto).
    + assert (HJ : forall j0, says_jp d (VJustificationPage j) = Some j0 ->
        MRel (EndP (past ++ upto_np (VJustificationPage j :: vs)) rs)
          (if negb (jp_eqb j0 (rs_jp rs)) then a_rtr md d (rs_new d) po (okv vs) (set_span (set_line (set_jp rs j0) 0) 0) spans lb else a_rtr md d (rs_new d) po (okv vs) rs spans lb)
          (if negb (jp_eqb j0 (rs_jp rs)) then a_rtr md d (rs_new d) po (okv ws) (set_span (set_line (set_jp rs j0) 0) 0) spans lb else a_rtr md d (rs_new d) po (okv ws) rs spans lb)).
      { intros j0 E. destruct HT as (A1 & A2 & A3 & A4 & A5). destruct (negb (jp_eqb j0 (rs_jp rs))) eqn:EJ; apply go; auto;
          unfold TI, FgInv, font_of, jp_of; rewrite !in_force_snoc, E; cbn; splits; auto.
        apply negb_false_iff in EJ. destruct j0, (rs_jp rs); try discriminate EJ; auto. }
      destruct j as [[]|]; try apply bad; now apply HJ.
    + match goal with |- context [if ?c then Val _ else _] => destruct c end; [apply bad|]. destruct (chk8 _ _); cbn [bind]; try exact I. apply go; auto.
    + unfold EndP. cbn. rewrite app_nil_r. splits; auto. intros _. right; left. split; [eauto|]. exists vs, ws. splits; auto.
    + destruct (_ && _) eqn:EB; [apply bad|]. apply go; auto. destruct HT as (A1 & A2 & A3 & A4 & A5). unfold TI, FgInv, font_of, jp_of. rewrite !in_force_snoc. cbn. splits; auto.
      intros n [= <-]. exact EB.
    + apply go; auto. destruct HT as (A1 & A2 & A3 & A4 & A5). unfold TI, FgInv, font_of, jp_of. rewrite !in_force_snoc. cbn. splits; auto. discriminate.
    + destruct (chk8 _ _); cbn [bind]; try exact I. apply go; auto.
    + destruct (update_text_rectangle _ _ _ _) as [[q|]| |]; cbn [bind]; try exact I; [|apply bad].
      unfold EndP. cbn. splits; auto. intros _. right; right. split; auto. exists (past ++ [VTextRectangle r]), vs, ws. splits; auto.
      now rewrite <- app_assoc.
  - assert (E : a_rtr md d (rs_new d) po (okv (v :: ws)) rs spans lb = a_rtr md d (rs_new d) po (okv ws) rs spans lb).
    { cbn [okv map a_rtr bind]. fold (okv ws). cbv zeta. destruct HT as (A1 & A2 & A3 & A4 & A5). destruct HR; auto.
      - rewrite (fg_again past) by auto. destruct rs; reflexivity.
      - rewrite H0 in A2. replace (set_font rs _ _) with rs; [reflexivity|]. destruct rs; cbn in A2. unfold set_font. cbn.
        destruct o as [[n w]|]; cbn in A2; injection A2 as -> ->; reflexivity.
      - rewrite H1 in A3. assert (X : forall j, jp_eqb j j = true) by (intros []; reflexivity).
        destruct o as [[]|]; cbn in A3; try congruence; cbn [rs_new rs_jp]; rewrite A3, X; reflexivity.
      - rewrite (A5 n H0). rewrite H0 in A4. destruct rs; cbn in A4. rewrite A4. reflexivity.
      - rewrite H0 in A4. destruct rs; cbn in A4. rewrite A4. reflexivity. }
    rewrite E. apply IH; auto. destruct HK as [K1 K2]. inversion K2. split; assumption.
Qed.

(** ** Pages *)


Definition PageRel (p q : AP) : Prop :=
  ap_rs p = ap_rs q /\ ap_state p = ap_state q
  /\ (ap_state p = PsDone
      \/ ap_state p = PsOff false
      \/ (exists past r s, ap_rest p = okv r /\ ap_rest q = okv s /\ Padded d past r s /\ Known r s /\ TI past (ap_rs p) /\ PI past (ap_rs p))).

Definition StepRel {A} (R : AP -> AP -> Prop) (x y : AP * result A SyntaxError) : Prop :=
  snd x = snd y /\ (forall a, snd x = Ok a -> R (fst x) (fst y)).

Definition LoopRel (p q : AP) : Prop :=
  ap_rs p = ap_rs q /\ ap_state p = ap_state q
  /\ (ap_state p = PsOn false
       /\ (exists past r s, ap_rest p = okv r /\ ap_rest q = okv s /\ Padded d past r s /\ Known r s /\ TI past (ap_rs p) /\ PI (past ++ upto_np r) (ap_rs p))
      \/ ap_state p <> PsOn false /\ PageRel p q).


Lemma loop_same md fuel : forall n p q raster, LoopRel p q ->
  MRel (StepRel PageRel) (a_page_loop md d fuel n p raster) (a_page_loop md d fuel n q raster).
Proof.
  induction fuel as [|f IH]; intros n p q raster (ER & ES & H); [exact I|].
  destruct H as [(S1 & past & r & s & E1 & E2 & HD & HK & HT & HP)|(S1 & HP)].
  - cbn [a_page_loop]. rewrite <- ES, S1, <- ER, E1, E2.
    rewrite (graphics_pad md past r s HD (rs_ctx (ap_rs p)) raster) by apply HT.
    destruct (render_graphics_loop _ _ _ _ _) as [[q1|e]| |]; cbn [bind]; try exact I.
    2:{ unfold StepRel. cbn. split; auto. discriminate. }
    unfold a_text_rect. rewrite <- ER, E1, E2.
    pose proof (text_pad md (0 <? rs_off_time (ap_rs p)) past r s HD HK (ap_rs p) [] true HT) as HX.
    destruct (a_rtr _ _ _ _ _ _ _ _) as [e| |], (a_rtr _ _ _ _ _ _ _ _) as [e'| |]; cbn in HX; try contradiction; cbn [bind]; auto.
    destruct HX as (X1 & X2 & X3 & X4 & X0 & X5). rewrite <- X4, <- X1, <- X2, <- X3. destruct (a_res e) as [[]|er]; cbn [bind].
    2:{ unfold StepRel. cbn. split; auto. discriminate. }
    destruct (render_text_spans _ _ _ _) as [[q2|er]| |]; cbn [bind]; try exact I.
    2:{ unfold StepRel. cbn. split; auto. discriminate. }
    destruct (MAX_TEXT_RECTANGLES <? n + 1). { unfold StepRel. cbn. split; auto. discriminate. }
    apply X0 in HP. clear X0.
    apply IH. unfold LoopRel. cbn [ap_rs ap_state ap_rest]. splits; auto.
    destruct (X5 eq_refl) as [(po & E)|[((po & E) & r' & s' & F1 & F2 & G & GK & GT)|(E & P & r' & s' & F1 & F2 & G & GK & GT & GE)]].
    + right. rewrite E. split; [destruct po; discriminate|]. unfold PageRel. cbn. splits; auto. destruct po; auto.
    + right. rewrite E. split; [destruct po; discriminate|]. unfold PageRel. cbn. splits; auto. right; right.
      exists ((past ++ upto_np r) ++ [VNewPage]), r', s'. splits; auto. eapply PI_other; eauto.
    + left. split; [exact E|]. exists P, r', s'. splits; auto. rewrite GE. exact HP.
  - rewrite !a_page_loop_stop by congruence. unfold StepRel. cbn. split; auto.
Qed.

Lemma check_supported vs : Forall (Supports d) vs -> check_unsupported d (bare (okv vs)) = Val (Ok tt).
Proof.
  induction 1 as [|v vs Hv _ IH]; [reflexivity|]. cbn [okv map bare check_unsupported try]. fold (okv vs). fold (bare (okv vs)).
  destruct (value_tag v) as [t|] eqn:E; [|exact IH]. rewrite (proj2 (contains_lists d t)) by (apply Hv; now apply value_tag_iff).
  cbn [negb]. destruct (_ =? _); auto.
Qed.

Lemma on_page_same md p q : PageRel p q -> (exists b, ap_state p = PsOn b) ->
  MRel (StepRel PageRel) (a_on_page md d p) (a_on_page md d q).
Proof.
  intros (ER & ES & H) (b & Eb). destruct H as [H|[H|(past & r & s & E1 & E2 & HD & HK & HT & HP)]]; [congruence|congruence|].
  unfold a_on_page. cbv zeta. rewrite E1, E2, !check_supported by apply HK. cbn [bind]. rewrite <- ER.
  unfold update_page_state. cbv zeta.
  set (rs0 := set_span (set_line (set_line_spacing (set_rect (ap_rs p) (rs_rect (rs_new d))) (rs_line_spacing (rs_new d))) 0) 0).
  assert (HP0 : PI past rs0) by exact HP. assert (HT0 : TI past rs0) by exact HT.
  destruct (update_pad past r s HD rs0 HP0) as [HU HU']. rewrite <- HU.
  destruct (update_page_loop _ (bare (okv r)) _) as [[rs u]| |]; cbn [bind]; try exact I.
  destruct u as [[]|e].
  2:{ unfold StepRel. cbn. split; auto. discriminate. }
  destruct (HU' rs eq_refl) as [HP1 HT1]. apply HT1 in HT0. clear HU HU' HT1.
  assert (HL : LoopRel (mkAP rs (PsOn false) (okv r)) (mkAP rs (PsOn false) (okv s))).
  { unfold LoopRel. cbn. splits; auto. left. split; auto. exists past, r, s. splits; auto. }
  pose proof (loop_same md 52 0 _ _ (build_raster rs) HL) as HX.
  destruct (a_page_loop md d 52 0 (mkAP rs (PsOn false) (okv r)) (build_raster rs)) as [[p1 r1]| |],
    (a_page_loop md d 52 0 (mkAP rs (PsOn false) (okv s)) (build_raster rs)) as [[q1 r2]| |]; cbn in HX; try contradiction; cbn [bind]; auto.
  destruct HX as [HX HY]. cbn [fst snd] in *. subst r2. destruct r1 as [q2|e]; unfold StepRel; cbn; [|split; [auto|discriminate]].
  specialize (HY q2 eq_refl). split; [|auto]. destruct HY as (-> & _). reflexivity.
Qed.

Lemma next_same md p q : PageRel p q ->
  MRel (fun x y => fst x = fst y /\ (forall pg, fst x = Some (Ok pg) -> PageRel (snd x) (snd y))) (a_next md d p) (a_next md d q).
Proof.
  intros H. pose proof H as (ER & ES & HC). unfold a_next. rewrite <- ES. destruct (ap_state p) as [b|b|] eqn:E.
  - pose proof (on_page_same md p q H ltac:(eauto)) as HX.
    destruct (a_on_page md d p) as [[p1 r1]| |], (a_on_page md d q) as [[q1 r2]| |]; cbn in HX; try contradiction; cbn [bind]; auto.
    destruct HX as [HX HY]. cbn [fst snd] in *. subst r2. cbn. split; auto. intros pg [= ->]. eauto.
  - cbn. rewrite <- ER. split; auto. intros _ _. unfold PageRel. cbn. splits; auto.
    destruct HC as [HC|[HC|HC]]; [discriminate|injection HC; intros ->; auto|auto].
  - cbn. split; [reflexivity|discriminate].
Qed.

Lemma take_same md : forall ps p q, PageRel p q -> a_take md d (List.length ps) p = Val (map Ok ps) ->
  a_take md d (List.length ps) q = Val (map Ok ps) /\ a_take md d (S (List.length ps)) p = a_take md d (S (List.length ps)) q.
Proof.
  induction ps as [|P ps IH]; intros p q HP H.
  - split; [reflexivity|]. cbn [List.length a_take]. pose proof (next_same md p q HP) as HX.
    destruct (a_next md d p) as [[o p']| |], (a_next md d q) as [[o' q']| |]; cbn in HX; try contradiction; cbn [bind]; auto.
    destruct HX as [<- _]. destruct o; reflexivity.
  - cbn [List.length] in *. pose proof (next_same md p q HP) as HX. cbn [a_take] in H.
    destruct (a_next md d p) as [[o p']| |] eqn:En, (a_next md d q) as [[o' q']| |] eqn:En'; cbn in HX; try contradiction; try discriminate H.
    destruct HX as [<- HX]. cbn [bind] in H. destruct o as [x|]; [|discriminate]. apply bind_val in H as (l & Hl & E).
    injection E as -> ->. destruct (IH p' q' (HX P eq_refl) Hl) as [I1 I2].
    cbn [a_take]. rewrite En, En'. cbn [bind]. rewrite I1. cbn [bind]. split; [reflexivity|].
    change (bind (a_take md d (S (List.length ps)) p') (fun l => Val (Ok P :: l)) = bind (a_take md d (S (List.length ps)) q') (fun l => Val (Ok P :: l))).
    now rewrite I2.
Qed.

Lemma padded md ms ms' vs ws : Meaning ms (map Ok vs) -> Meaning ms' (map Ok ws) -> Padded d [] vs ws ->
  Forall (Supports d) vs -> Forall (Supports d) ws -> forall ps,
  pages_take md d (List.length ps) (pages_new d ms) = Val (map Ok ps) ->
  pages_take md d (List.length ps) (pages_new d ms') = Val (map Ok ps)
  /\ pages_take md d (S (List.length ps)) (pages_new d ms) = pages_take md d (S (List.length ps)) (pages_new d ms').
Proof.
  intros HM HM' HS K K' ps H.
  destruct (Tokens_exists ms) as (ts & HT). destruct (Tokens_exists ms') as (ts' & HT').
  rewrite !(take_start md d _ ms _ (Reads_new _ _ HT)) in *. rewrite !(take_start md d _ ms' _ (Reads_new _ _ HT')) in *.
  rewrite (meaning_okv ms vs ts HT HM) in *. rewrite (meaning_okv ms' ws ts' HT' HM') in *.
  apply take_same; auto. unfold PageRel, a_start. cbn. splits; auto. right; right. exists [], vs, ws. splits; auto; try apply TI_start. split; auto.
Qed.

End Sign.
