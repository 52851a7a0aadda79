(** Proofs for C83. *)

From Coq Require Import ZifyBool ZifyNat Lia.
From Verif Require Import Base Str Multi Color Raster Font Graphic Config Sign Render
  Spec_Multi Spec_Color Spec_Font Spec_Graphic Spec_Sign Spec_Render Spec_Layout Spec_Draw Spec_Page Spec_Safe Spec_Fail Spec_Below
  Proofs_Str Proofs_Norm Proofs_Font Proofs_Graphic Proofs_Sign Proofs_Render Proofs_Pages Proofs_Horiz Proofs_Vert Proofs_Layout
  Proofs_Place Proofs_Draw Proofs_Page Proofs_Orderly Proofs_Rows Proofs_Modes Proofs_Safe Proofs_Text Proofs_Fail Proofs_Verdict Proofs_First Proofs_Unique.
Open Scope list_scope.

(** ** Tags that only add text *)

Lemma force_app {A} (f : Value -> option A) a b : forall x, in_force f x (a ++ b) = in_force f (in_force f x a) b.
Proof. induction a as [|v a IH]; intros x; [reflexivity|]. cbn [app in_force]. apply IH. Qed.

Lemma force_none {A} (f : Value -> option A) b : Forall (fun v => f v = None) b -> forall x, in_force f x b = x.
Proof. induction 1 as [|v b E _ IH]; intros x; [reflexivity|]. cbn [in_force]. rewrite E. apply IH. Qed.

Definition still (v : Value) : Prop :=
  match v with VJustificationPage _ => True | _ => adds_text v end.

Lemma adds_still v : adds_text v -> still v. Proof. destruct v; cbn; auto. Qed.

Lemma added_force {A} (P : Value -> Prop) (f : Value -> option A) x a ws : (forall v, P v -> f v = None) -> Forall P ws ->
  in_force f x (a ++ ws) = in_force f x a.
Proof. intros H F. rewrite force_app. apply force_none. eapply Forall_impl; [exact H|exact F]. Qed.

Section Added.
Variables (d : Dms) (ws : list Value).
Hypothesis HW : Forall still ws.

Lemma added_bg a : bg_of d (a ++ ws) = bg_of d a.
Proof. apply (added_force still); auto. intros v; destruct v; cbn; intros []; reflexivity. Qed.
Lemma added_times a : times_of d (a ++ ws) = times_of d a.
Proof. apply (added_force still); auto. intros v; destruct v; cbn; intros []; reflexivity. Qed.

Lemma graphics_added c : forall vs done p q, Graphics d c done (vs ++ ws) p q -> Graphics d c done vs p q.
Proof.
  induction vs as [|v vs IH]; intros done p q H; cbn [app] in H.
  - assert (E : forall l done p q, Forall still l -> Graphics d c done l p q -> q = p).
    { clear. induction l as [|v l IH]; intros done p q F G; inversion G; subst; auto; inversion F as [|? ? X Y]; subst;
        try contradiction; eauto. }
    rewrite (E ws done p q HW H). constructor.
  - inversion H; subst; [eapply Gr_graphic|eapply Gr_rect|eapply Gr_other]; eauto.
Qed.
End Added.

(** ** The same page with text added *)

Lemma setting_page d e pg pg' u r vs : bg_of d (e ++ pg') = bg_of d (e ++ pg) -> times_of d (e ++ pg') = times_of d (e ++ pg) ->
  setting d (mkPlace e pg' u r) vs = setting d (mkPlace e pg u r) vs.
Proof.
  intros H1 H2. unfold setting, page_colors. cbn [pl_earlier pl_page pl_upto pl_rect]. rewrite H1, H2. reflexivity.
Qed.

Lemma texts_page d e pg pg' u r : bg_of d (e ++ pg') = bg_of d (e ++ pg) -> times_of d (e ++ pg') = times_of d (e ++ pg) ->
  forall vs done, texts d (mkPlace e pg' u r) done vs = texts d (mkPlace e pg u r) done vs.
Proof.
  intros H1 H2. induction vs as [|v vs IH]; intros done; [reflexivity|]. cbn [texts].
  rewrite (setting_page d e pg pg' u r done H1 H2), IH. reflexivity.
Qed.

Lemma graphics_page d e pg pg' u r : bg_of d (e ++ pg') = bg_of d (e ++ pg) ->
  forall done vs p q, Graphics d (mkPlace e pg' u r) done vs p q -> Graphics d (mkPlace e pg u r) done vs p q.
Proof.
  intros H1. assert (E : forall vs, graphic_colors d (mkPlace e pg' u r) vs = graphic_colors d (mkPlace e pg u r) vs).
  { intros vs. unfold graphic_colors. cbn [pl_earlier pl_page pl_upto]. rewrite H1. reflexivity. }
  induction 1 as [done p|done n pos rr p q q' HT HG IH|done rect clr rr p q q' HT HG IH|done v rr p q N1 N2 HG IH].
  - constructor.
  - eapply Gr_graphic; [|exact IH]. rewrite <- E. exact HT.
  - eapply Gr_rect; [|exact IH]. rewrite <- E. exact HT.
  - apply Gr_other; auto.
Qed.

Lemma rendered_page d pg pg' c vs p q : Rendered d (TextsShown d) c vs p q -> pl_page c = pg' ->
  bg_of d (pl_earlier c ++ pg') = bg_of d (pl_earlier c ++ pg) -> times_of d (pl_earlier c ++ pg') = times_of d (pl_earlier c ++ pg) ->
  Rendered d (TextsShown d) (mkPlace (pl_earlier c) pg (pl_upto c) (pl_rect c)) vs p q.
Proof.
  induction 1 as [c vs p q q' N G X|c vs r rest p q q' q'' N G X GR HR IH]; destruct c as [e pp u rr]; cbn [pl_earlier pl_page pl_upto pl_rect] in *;
    intros -> H1 H2.
  - apply (Rd_last d _ _ vs p q q'); auto; [exact (graphics_page d e pg pg' u rr H1 _ _ _ _ G)|].
    unfold TextsShown in *. cbn [pl_rect] in *. rewrite <- (texts_page d e pg pg' u rr H1 H2). exact X.
  - apply (Rd_rect d _ _ vs r rest p q q' q''); auto; [exact (graphics_page d e pg pg' u rr H1 _ _ _ _ G)|].
    unfold TextsShown in *. cbn [pl_rect] in *. rewrite <- (texts_page d e pg pg' u rr H1 H2). exact X.
Qed.

Definition rect_after (d : Dms) (r : Rectangle) (fr : list Value) : Rectangle :=
  in_force (fun v => match v with
                     | VTextRectangle r =>
                         Some (rect_on (sign_width_pixels (d_vms_cfg d)) (sign_height_pixels (d_vms_cfg d)) r)
                     | _ => None
                     end) r fr.

Lemma rect_after_none d a : no_text_rect a -> forall r, rect_after d r a = r.
Proof.
  intros N r. apply force_none. apply Forall_forall. intros v I. destruct v; auto. exfalso. exact (N _ I).
Qed.

Lemma both_texts d vs u w : Forall still u -> Forall still w -> no_text_rect vs ->
  forall fr, Front fr -> forall c p p' q q', SameImage p p' ->
  Rendered d (TextsShown d) c (fr ++ vs ++ u) p q -> Rendered d (TextsShown d) c (fr ++ vs ++ w) p' q' ->
  exists r r', SameImage r r'
    /\ TextsShown d (mkPlace (pl_earlier c) (pl_page c) (pl_upto c ++ fr) (rect_after d (pl_rect c) fr)) (vs ++ u) r q
    /\ TextsShown d (mkPlace (pl_earlier c) (pl_page c) (pl_upto c ++ fr) (rect_after d (pl_rect c) fr)) (vs ++ w) r' q'.
Proof.
  intros HU HW HV. induction 1 as [|a r b N HF IH]; intros c p p' q q' S H K.
  - cbn [app] in H, K. rewrite <- (app_nil_r (vs ++ u)) in H. rewrite <- (app_nil_r (vs ++ w)) in K.
    assert (HV' : forall z, Forall still z -> no_text_rect (vs ++ z)).
    { intros z HZ r I. apply in_app_or in I as [I|I]; [exact (HV _ I)|]. rewrite Forall_forall in HZ. exact (HZ _ I). }
    apply rendered_cut in H as (q1 & q2 & G1 & X1 & [[_ <-]|(r & rest & E & _)]); auto; [|discriminate E].
    apply rendered_cut in K as (q3 & q4 & G3 & X3 & [[_ <-]|(r & rest & E & _)]); auto; [|discriminate E].
    apply (graphics_added d u HU) in G1. apply (graphics_added d w HW) in G3. exists q1, q3. rewrite app_nil_r. cbn [rect_after in_force].
    split; [exact (graphics_same _ _ _ _ _ _ G1 _ _ S G3)|]. destruct c. split; assumption.
  - rewrite <- app_assoc in H, K. cbn [app] in H, K.
    apply rendered_cut in H as (q1 & q2 & G1 & X1 & [[E _]|(r1 & rest1 & E & _ & R1)]); eauto; [discriminate E|].
    injection E as <- <-.
    apply rendered_cut in K as (q3 & q4 & G3 & X3 & [[E _]|(r1 & rest1 & E & _ & R3)]); eauto; [discriminate E|].
    injection E as <- <-.
    assert (S2 : SameImage q2 q4).
    { apply ts_at in X1, X3. apply (drawn_same _ _ _ _ _ X1 q3 q4); auto. exact (graphics_same _ _ _ _ _ _ G1 _ _ S G3). }
    destruct (IH _ _ _ _ _ S2 R1 R3) as (x & x' & SX & T1 & T2). cbn [pl_earlier pl_page pl_upto pl_rect] in *.
    exists x, x'. split; [exact SX|].
    assert (E1 : (pl_upto c ++ a ++ [VTextRectangle r]) ++ b = pl_upto c ++ a ++ VTextRectangle r :: b).
    { rewrite <- !app_assoc. reflexivity. }
    assert (E2 : rect_after d (pl_rect c) (a ++ VTextRectangle r :: b)
                 = rect_after d (rect_on (sign_width_pixels (d_vms_cfg d)) (sign_height_pixels (d_vms_cfg d)) r) b).
    { unfold rect_after. rewrite force_app. fold (rect_after d (pl_rect c) a). reflexivity. }
    rewrite E1, <- E2 in T1, T2. auto.
Qed.

(** ** Places of the earlier lines *)

Lemma ink_row sp h cs x y px py : InkText sp h cs x y px py -> y <= py.
Proof. intros (pre & c & post & _ & H & _). lia. Qed.

Lemma painted_draw d all : forall todo p q, DrawnAt d all todo p q -> r_width q = r_width p /\ r_height q = r_height p
  /\ forall x y, r_pixel q x y = r_pixel p x y
     \/ exists t b, In t todo /\ AtY d all t b /\ b <= y /\ r_pixel q x y = foreground_rgb (rs_ctx (span_state t)).
Proof.
  induction 1 as [p|s r p q q' f cs x y SW X Y P D IH]; [splits; auto|].
  destruct P as (P1 & P2 & P). destruct IH as (I1 & I2 & IH). splits; try congruence.
  intros a b. destruct (IH a b) as [E|(t & v & I & H)]; [|right; exists t, v; split; [now right|exact H]].
  destruct (rgb_dec (r_pixel q a b) (r_pixel p a b)) as [E'|E']; [left; congruence|].
  destruct (P a b) as [H1 H2]. right. exists s, y. splits; [now left|exact Y| |].
  - destruct (Z_le_dec y b); auto. exfalso. apply E', H2. intros K. apply ink_row in K. lia.
  - rewrite E. destruct (rgb_dec (r_pixel q a b) (foreground_rgb (rs_ctx (span_state s)))) as [K|K]; auto.
    exfalso. apply E', H2. auto.
Qed.

Lemma drawn_app d all a : forall b p q, DrawnAt d all (a ++ b) p q -> exists r, DrawnAt d all a p r /\ DrawnAt d all b r q.
Proof.
  induction a as [|s a IH]; intros b p q H; cbn [app] in H; [exists p; split; [constructor|exact H]|].
  inversion H; subst. match goal with K : DrawnAt d all (a ++ b) _ _ |- _ => apply IH in K as (r & K1 & K2) end.
  exists r. split; auto. eapply Da_cons; eauto.
Qed.

Lemma drawn_in d all : forall todo p q, DrawnAt d all todo p q -> forall s, In s todo -> exists y, AtY d all s y.
Proof. induction 1 as [p|s r p q q' f cs x y SW X Y P D IH]; intros t []; [subst t; eauto|auto]. Qed.

Lemma drawn_places d all all' : forall todo p q, DrawnAt d all todo p q ->
  (forall s x y, In s todo -> AtX d all s x -> AtX d all' s y -> x = y) ->
  (forall s x y, In s todo -> AtY d all s x -> AtY d all' s y -> x = y) ->
  forall p' q', SameImage p p' -> DrawnAt d all' todo p' q' -> SameImage q q'.
Proof.
  induction 1 as [p|s r p q q' f cs x y SW X Y P D IH]; intros HX HY p' qq S K.
  - inversion K; subst. exact S.
  - inversion K as [|? ? ? q1 ? f' cs' x' y' SW' X' Y' P' D']; subst.
    apply (IH (fun t a b I => HX t a b (or_intror I)) (fun t a b I => HY t a b (or_intror I)) q1 qq); auto.
    destruct (set_with_fun _ _ _ _ _ _ SW SW') as [<- <-].
    rewrite <- (HX s x x' (or_introl eq_refl) X X'), <- (HY s y y' (or_introl eq_refl) Y Y') in P'.
    exact (painted_same _ _ _ _ _ _ S P P').
Qed.

Lemma picked_front {A} (P : A -> Prop) a b g : (forall x, In x b -> ~ P x) -> Picked P (a ++ b) g -> Picked P a g.
Proof.
  intros N H. apply Picked_app in H as (g1 & g2 & -> & H1 & H2).
  assert (g2 = []) as ->; [|now rewrite app_nil_r].
  destruct g2 as [|x g2]; auto. exfalso. destruct (proj1 (Picked_in _ _ _ x H2) (or_introl eq_refl)) as [I X]. exact (N x I X).
Qed.

Lemma at_x_front d l m s x y : (forall t, In t m -> ~ SameRun s t) -> AtX d l s x -> AtX d (l ++ m) s y -> x = y.
Proof.
  intros N H (run & b & t & P & K). apply (at_x_fun d l s x y H). exists run, b, t. split; [|exact K].
  exact (picked_front _ _ _ _ N P).
Qed.

Lemma placed_y_front d l m s x y : table_fields (d_fonts d) -> In s l -> s_jp s = JpTop ->
  (forall t, In t m -> SameBlock s t -> s_line s < s_line t) ->
  PlacedY d l s x -> PlacedY d (l ++ m) s y -> x = y.
Proof.
  intros HF I J N (us & fs & a & tot & bs & h1 & B & U & S1 & _ & _ & Y & H1 & ->)
    (ut & ft & a' & tot' & bt & h2 & B' & U' & S1' & _ & _ & Y' & H2 & ->).
  assert (us = ut) as <-.
  { assert (L : List.length us = List.length ut) by lia.
    assert (E : forall n, nth_error us n = nth_error ut n).
    { intros n. destruct (nth_error us n) as [g|] eqn:E1.
      - assert (n < List.length us)%nat by (apply nth_error_Some; congruence).
        destruct (nth_error ut n) as [g'|] eqn:E2; [|apply nth_error_None in E2; lia].
        destruct B as [B _], B' as [B' _].
        destruct (B n g) as [_ P]; [now rewrite nth_error_app1 by lia|].
        destruct (B' n g') as [_ P']; [now rewrite nth_error_app1 by lia|].
        f_equal. apply (Picked_fun _ _ _ _ P). apply (picked_front _ _ _ _ ) in P'; auto.
        intros t It [T1 T2]. specialize (N t It T1). lia.
      - apply nth_error_None in E1. symmetry. apply nth_error_None. lia. }
    clear - E. revert ut E. induction us as [|g us IH]; intros [|g' ut] E; auto; [specialize (E O); discriminate E..|].
    f_equal; [specialize (E O); now injection E|]. apply IH. intros n. exact (E (S n)). }
  rewrite (StackHeight_fun d us a a' S1 S1') in *. rewrite (HeightOf_fun _ s _ _ H1 H2).
  unfold place_y in Y, Y'. rewrite J in Y, Y'. lia.
Qed.

(** ** The lines added *)

Section Sep.
Variables (d : Dms) (c : Place).
Notation past := (pl_earlier c ++ pl_upto c).

Lemma added_jp v a : adds_text v -> jp_of d (a ++ [v]) = jp_of d a.
Proof. intros H. apply (added_force adds_text); [|constructor; auto]. intros w; destruct w; cbn; intros []; reflexivity. Qed.

Lemma added_line v vs : adds_text v -> line_at d past 0 vs <= line_at d past 0 (vs ++ [v]).
Proof. intros H. rewrite line_at_snoc. destruct v; try contradiction; unfold changes_jp; cbn; lia. Qed.

Lemma added_texts ws : Forall adds_text ws -> forall vs t, In t (texts d c vs ws) ->
  s_jp t = jp_of d (past ++ vs) /\ line_at d past 0 vs <= s_line t.
Proof.
  induction 1 as [|v ws V _ IH]; intros vs t I; [destruct I|]. cbn [texts] in I. apply in_app_or in I as [I|I].
  - assert (E : (exists x, t = SpText (setting d c vs) x) \/ exists h, t = SpHex (setting d c vs) h).
    { destruct v; try contradiction; try (destruct (blank_line vs)); try contradiction; destruct I as [<-|[]]; eauto. }
    destruct E as [(x & ->)|(h & ->)]; (split; [reflexivity|]); apply Z.le_refl.
  - destruct (IH _ _ I) as [E L]. rewrite app_assoc, added_jp in E by auto. split; auto.
    pose proof (added_line v vs V). lia.
Qed.

Lemma blank_fresh vs : blank_line vs = true -> fresh_at d past true vs = true.
Proof.
  induction vs as [|v vs IH] using rev_ind; intros H; [reflexivity|].
  unfold blank_line in H. rewrite Proofs_Page.in_force_snoc in H. fold (blank_line vs) in H.
  rewrite fresh_at_snoc. destruct v; cbn in H; try discriminate H; auto; destruct (changes_jp d (past ++ vs) _); auto.
Qed.

Lemma orderly_front past' vs ws : Orderly d past' (vs ++ ws) -> Orderly d past' vs.
Proof. intros H a v b ->. apply (H a v (b ++ ws)). now rewrite <- app_assoc. Qed.

Lemma added_sep vs ws : Orderly d past (vs ++ ws) -> Forall adds_text ws -> (exists o r, ws = VNewLine o :: r) ->
  forall s t, In s (texts d c [] vs) -> In t (texts d c vs ws) ->
  s_jp t = jp_of d (past ++ vs) /\ (s_jp s = jp_of d (past ++ vs) -> s_line s < s_line t).
Proof.
  intros HO HW (o & r & ->) s t Is It. split; [exact (proj1 (added_texts _ HW _ _ It))|]. intros J.
  destruct (orderly_inv d c vs (orderly_front _ _ _ HO)) as [_ _ _ IS _ _ _ _].
  destruct (IS s Is J) as (L1 & L2 & _). cbn [texts] in It. apply in_app_or in It as [It|It].
  - destruct (blank_line vs) eqn:B; [|contradiction]. destruct It as [<-|[]].
    specialize (L2 (blank_fresh vs B)). exact L2.
  - apply added_texts in It as [_ L]; [|now inversion HW]. rewrite line_at_snoc in L. lia.
Qed.
End Sep.

Lemma texts_below d c vs ws r r' q q' : Built d -> jp_of d (pl_earlier c ++ pl_upto c ++ vs) = JpTop ->
  (exists o l, ws = VNewLine o :: l) -> Forall adds_text ws -> Orderly d (pl_earlier c ++ pl_upto c) (vs ++ ws) ->
  SameImage r r' -> TextsShown d c vs r q -> TextsShown d c (vs ++ ws) r' q' ->
  r_width q' = r_width q /\ r_height q' = r_height q
  /\ forall x y, on_raster q x y -> r_pixel q' x y = r_pixel q x y
     \/ exists t, In t (texts d c vs ws) /\ r_pixel q' x y = foreground_rgb (rs_ctx (span_state t))
          /\ BelowAll d (texts d c [] vs) y.
Proof.
  intros HB HJ HN HW HO S T T'. rewrite app_assoc in HJ.
  destruct (Built_parts d HB) as (HF & HV & HC).
  pose proof (added_sep d c vs ws HO HW HN) as SEP. rewrite HJ in SEP.
  pose proof (orderly_front d _ _ _ HO) as HO1.
  pose proof (orderly_inv d c vs HO1) as IV.
  destruct (orderly d c _ HO1) as [_ K1], (orderly d c _ HO) as [_ K2].
  pose proof (texts_app d c vs [] ws) as ET. cbn [app] in ET.
  assert (HS : Forall span_fields (texts d c [] (vs ++ ws))) by (destruct T'; auto).
  assert (HR : forall s, In s (texts d c [] (vs ++ ws)) -> s_rect s = pl_rect c) by (intros s; apply texts_rect).
  apply ts_at in T, T'. rewrite ET in T', K2, HS, HR. apply drawn_app in T' as (m & D1 & D2).
  set (l := texts d c [] vs) in *. set (n := texts d c vs ws) in *.
  assert (YY : forall s x y, In s l -> s_jp s = JpTop -> PlacedY d l s x -> PlacedY d (l ++ n) s y -> x = y).
  { intros s x y I J. apply placed_y_front; auto. intros t It _. exact (proj2 (SEP s t I It) J). }
  assert (SI : SameImage q m).
  { apply (drawn_places d l (l ++ n) l r q T) with (p' := r'); auto.
    - intros s x y I. apply at_x_front. intros t It (R1 & R2 & _). destruct (SEP s t I It) as [E L].
      rewrite E in R1. specialize (L (eq_sym R1)). lia.
    - intros s x y I Y Y'. apply at_placed_y in Y; auto. apply at_placed_y in Y'; auto; [|apply in_or_app; auto].
      assert (J : s_jp s = JpTop \/ s_jp s = JpOther).
      { pose proof (iv_jp d c vs IV s I) as R. rewrite HJ in R. destruct (s_jp s); cbn in R; auto; lia. }
      destruct J as [J|J]; [exact (YY s x y I J Y Y')|].
      destruct Y as (? & ? & ? & ? & ? & ? & _ & _ & _ & _ & _ & P & _). unfold place_y in P. rewrite J in P. contradiction. }
  destruct (painted_draw d _ _ _ _ D2) as (W & H & P). destruct SI as (W1 & H1 & P1).
  splits; try congruence. intros x y O. specialize (P1 x y O).
  destruct (P x y) as [E|(t & b & It & Y & L & E)]; [left; congruence|]. right. exists t. splits; auto.
  intros s top h I PY Hh.
  apply at_placed_y in Y; [|exact K2|apply in_or_app; auto].
  assert (J : s_jp s = JpTop).
  { pose proof (iv_jp d c vs IV s I) as R. rewrite HJ in R. destruct PY as (? & ? & ? & ? & ? & ? & _ & _ & _ & _ & _ & P2 & _).
    unfold place_y in P2. destruct (s_jp s); cbn in R; auto; try contradiction; lia. }
  assert (PY' : PlacedY d (l ++ n) s top).
  { destruct (drawn_in d _ _ _ _ D1 s I) as [y' Y']. apply at_placed_y in Y'; [|exact K2|apply in_or_app; auto].
    now rewrite (YY s top y' I J PY Y'). }
  assert (Ht : exists ht, HeightOf (d_fonts d) t ht).
  { destruct Y as (? & ? & ? & ? & ? & ht & _ & _ & _ & _ & _ & _ & Ht & _). eauto. }
  destruct Ht as [ht Ht].
  assert (top + h <= b); [|lia].
  refine (proj1 (placed_lines d HF (l ++ n) s t top b h ht HS HC _ _ _ _ _ PY' Y Hh Ht) _);
    try (apply in_or_app; auto; fail).
  - unfold SameBlock. now rewrite J, (proj1 (SEP s t I It)).
  - rewrite !HR by (apply in_or_app; auto). reflexivity.
  - exact (proj2 (SEP s t I It) J).
  - rewrite J. discriminate.
Qed.

(** ** Pages *)

Lemma one_shown d ms vs p l : Built d -> no_page_break vs -> Meaning ms (map Ok vs) -> Yields Debug d ms (map Ok (p :: l)) ->
  PageShown d (TextsShown d) [] vs (pg_raster p) /\ pg_duration p = fst (times_of d vs).
Proof.
  intros HB N M Y. apply pictures in Y as (vs' & pgs & M' & SP & EP); auto.
  assert (vs' = vs) as ->.
  { symmetry. exact (map_Ok_inj _ _ (Meaning_fun _ _ _ M M')). }
  rewrite (split_fun _ _ _ SP (Sp_last vs N)) in EP. inversion EP; subst; cbn [app] in *; auto.
Qed.

Lemma shown_both d e fr vs u w q q' : Front fr -> no_text_rect vs -> Forall still u -> Forall still w ->
  PageShown d (TextsShown d) e (fr ++ vs ++ u) q -> PageShown d (TextsShown d) e (fr ++ vs ++ w) q' ->
  exists r r', SameImage r r' /\ TextsShown d (mkPlace e (fr ++ vs) fr (last_rect d fr)) (vs ++ u) r q
     /\ TextsShown d (mkPlace e (fr ++ vs) fr (last_rect d fr)) (vs ++ w) r' q'.
Proof.
  intros HF HT HU HA S S'.
  assert (E : forall z, Forall still z -> forall x, PageShown d (TextsShown d) e (fr ++ vs ++ z) x ->
    Rendered d (TextsShown d) (mkPlace e (fr ++ vs) [] (sign_rect d)) (fr ++ vs ++ z)
      (with_color (sign_width_pixels (d_vms_cfg d)) (sign_height_pixels (d_vms_cfg d)) (page_background d e (fr ++ vs))) x).
  { intros z HZ x X.
    pose proof (added_bg d z HZ (e ++ fr ++ vs)) as B. pose proof (added_times d z HZ (e ++ fr ++ vs)) as B'. rewrite <- !app_assoc in B, B'.
    unfold PageShown in X.
    assert (EB : page_background d e (fr ++ vs ++ z) = page_background d e (fr ++ vs)).
    { unfold page_background. rewrite B. reflexivity. }
    rewrite EB in X. apply (rendered_page d (fr ++ vs) (fr ++ vs ++ z)) in X; [|reflexivity|exact B|exact B'].
    exact X. }
  apply (E u HU) in S. apply (E w HA) in S'.
  destruct (both_texts d vs u w HU HA HT fr HF _ _ _ _ _ (same_refl _) S S') as (r & r' & SI & T & T').
  cbn [pl_earlier pl_page pl_upto pl_rect app] in T, T'. exists r, r'. split; [exact SI|]. split; [exact T|exact T'].
Qed.

Lemma shown_last d e fr vs ws q q' : Front fr -> no_text_rect vs -> Forall still ws ->
  PageShown d (TextsShown d) e (fr ++ vs) q -> PageShown d (TextsShown d) e (fr ++ vs ++ ws) q' ->
  exists r r', SameImage r r' /\ TextsShown d (mkPlace e (fr ++ vs) fr (last_rect d fr)) vs r q
     /\ TextsShown d (mkPlace e (fr ++ vs) fr (last_rect d fr)) (vs ++ ws) r' q'.
Proof.
  intros HF HT HA S S'. rewrite <- (app_nil_r vs) in S at 1.
  pose proof (shown_both d e fr vs [] ws q q' HF HT (Forall_nil _) HA S S') as K. rewrite app_nil_r in K. exact K.
Qed.

Lemma last_shown md d ms ms' fr vs ws p l p' l' : Built d -> (md = Release -> ~ Wraps d ms /\ ~ Wraps d ms') ->
  Meaning ms (map Ok (fr ++ vs)) -> Meaning ms' (map Ok (fr ++ vs ++ ws)) ->
  Front fr -> no_page_break fr -> no_page_break vs -> no_text_rect vs -> Forall still ws ->
  Yields md d ms (map Ok (p :: l)) -> Yields md d ms' (map Ok (p' :: l')) ->
  pg_duration p' = pg_duration p
  /\ exists r r', SameImage r r' /\ TextsShown d (last_place d fr (fr ++ vs)) vs r (pg_raster p)
     /\ TextsShown d (last_place d fr (fr ++ vs)) (vs ++ ws) r' (pg_raster p').
Proof.
  intros HB HW M M' HF N1 N2 HT HA Y Y'.
  apply yields_debug in Y; [|auto|intros E; exact (proj1 (HW E))].
  apply yields_debug in Y'; [|auto|intros E; exact (proj2 (HW E))].
  assert (N3 : no_page_break (fr ++ vs)) by (intros I; apply in_app_or in I as [I|I]; auto).
  assert (N4 : no_page_break (fr ++ vs ++ ws)).
  { rewrite app_assoc. intros I. apply in_app_or in I as [I|I]; auto. rewrite Forall_forall in HA. exact (HA _ I). }
  destruct (one_shown d ms _ p l HB N3 M Y) as [S D], (one_shown d ms' _ p' l' HB N4 M' Y') as [S' D'].
  rewrite app_assoc in D'. rewrite (added_times d ws HA) in D'. split; [congruence|].
  exact (shown_last d [] fr vs ws _ _ HF HT HA S S').
Qed.

Lemma below md d ms ms' fr vs ws p l p' l' : Built d -> (md = Release -> ~ Wraps d ms /\ ~ Wraps d ms') ->
  Meaning ms (map Ok (fr ++ vs)) -> Meaning ms' (map Ok (fr ++ vs ++ ws)) -> LinesAdded d fr vs ws ->
  Yields md d ms (map Ok (p :: l)) -> Yields md d ms' (map Ok (p' :: l')) ->
  pg_duration p' = pg_duration p
  /\ r_width (pg_raster p') = r_width (pg_raster p) /\ r_height (pg_raster p') = r_height (pg_raster p)
  /\ forall x y, on_raster (pg_raster p) x y ->
     r_pixel (pg_raster p') x y = r_pixel (pg_raster p) x y
     \/ exists t, In t (texts d (last_place d fr (fr ++ vs)) vs ws)
          /\ r_pixel (pg_raster p') x y = foreground_rgb (rs_ctx (span_state t))
          /\ BelowAll d (texts d (last_place d fr (fr ++ vs)) [] vs) y.
Proof.
  intros HB HW M M' (HF & N1 & N2 & HT & HJ & HN & HA & HO) Y Y'.
  destruct (last_shown md d ms ms' fr vs ws p l p' l' HB HW M M' HF N1 N2 HT (Forall_impl _ adds_still HA) Y Y') as (D & r & r' & SI & T & T').
  split; [exact D|]. exact (texts_below d (last_place d fr (fr ++ vs)) vs ws r r' _ _ HB HJ HN HA HO SI T T').
Qed.
