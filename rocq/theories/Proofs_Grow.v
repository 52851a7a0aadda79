(** Messages that grow by lines of text. *)

From Coq Require Import String.
From Verif Require Import Base Str Multi Color Raster Font Graphic Config Sign Render
  Spec_Multi Spec_Color Spec_Font Spec_Graphic Spec_Sign Spec_Render Spec_Layout Spec_Draw Spec_Page Spec_Safe Spec_Fail
  Spec_Pattern Spec_Fit
  Proofs_Str Proofs_Split Proofs_Norm Proofs_Font Proofs_Glyph Proofs_Sign Proofs_Build Proofs_Render Proofs_Pages
  Proofs_Horiz Proofs_Vert Proofs_Layout Proofs_Place
  Proofs_Draw Proofs_Page Proofs_Safe Proofs_Text Proofs_Fail Proofs_Verdict Proofs_Unique Proofs_Fit.
From Coq Require Import ZifyBool ZifyNat.
Ltac Zify.zify_post_hook ::= Z.div_mod_to_equations.
Open Scope list_scope.

(** ** Values that lines do not change *)

Definition skips {A} (f : Value -> option A) : Prop :=
  (forall t, f (VText t) = None) /\ (forall n, f (VNewLine n) = None).
Definition agree (a b : list Value) : Prop :=
  forall A (f : Value -> option A) x, skips f -> in_force f x a = in_force f x b.

Lemma in_force_app {A} (f : Value -> option A) a b : forall x, in_force f x (a ++ b) = in_force f (in_force f x a) b.
Proof. induction a as [|v a IH]; intros x; [reflexivity|]. cbn [app in_force]. apply IH. Qed.

Lemma agree_refl a : agree a a. Proof. intros A f x _. reflexivity. Qed.
Lemma agree_app a b a' b' : agree a b -> agree a' b' -> agree (a ++ a') (b ++ b').
Proof. intros H H' A f x S. rewrite !in_force_app, (H A f x S). apply H'; auto. Qed.

Lemma skips_jp d : skips (says_jp d). Proof. split; reflexivity. Qed.

Lemma changes_agree d p p' v : agree p p' -> changes_jp d p v = changes_jp d p' v.
Proof. intros H. unfold changes_jp, jp_of. now rewrite (H _ _ _ (skips_jp d)). Qed.

Lemma line_at_agree d : forall vs p p' n, agree p p' -> line_at d p n vs = line_at d p' n vs.
Proof.
  induction vs as [|v vs IH]; intros p p' n H; [reflexivity|]. cbn [line_at]. rewrite (changes_agree d p p' v H).
  apply IH. apply agree_app; auto using agree_refl.
Qed.

Lemma text_at_agree d : forall vs p p' n, agree p p' -> text_at d p n vs = text_at d p' n vs.
Proof.
  induction vs as [|v vs IH]; intros p p' n H; [reflexivity|]. cbn [text_at]. rewrite (changes_agree d p p' v H).
  apply IH. apply agree_app; auto using agree_refl.
Qed.

(** Places at which the same settings are in force. *)
Record PR (c0 c1 : Place) : Prop := {
  pr_rect : pl_rect c0 = pl_rect c1;
  pr_earlier : agree (pl_earlier c0) (pl_earlier c1);
  pr_page : agree (pl_page c0) (pl_page c1);
  pr_upto : agree (pl_upto c0) (pl_upto c1);
  pr_lead : in_force says_lead None (pl_upto c0) = in_force says_lead None (pl_upto c1);
  pr_rects : text_rects (pl_upto c0) = text_rects (pl_upto c1) }.

Section Place.
Variables (d : Dms) (c0 c1 : Place).
Hypothesis H : PR c0 c1.

Lemma pr_past vs : agree ((pl_earlier c0 ++ pl_upto c0) ++ vs) ((pl_earlier c1 ++ pl_upto c1) ++ vs).
Proof. destruct H. repeat apply agree_app; auto using agree_refl. Qed.
Lemma pr_all : agree (pl_earlier c0 ++ pl_page c0) (pl_earlier c1 ++ pl_page c1).
Proof. destruct H. apply agree_app; auto. Qed.

Lemma pr_setting vs : setting d c0 vs = setting d c1 vs.
Proof.
  unfold setting, page_colors, fg_of, bg_of, times_of, jp_of, jl_of, font_of.
  rewrite !in_force_app with (f := says_lead). rewrite (pr_lead _ _ H), (pr_rect _ _ H).
  rewrite (line_at_agree d vs (pl_earlier c0 ++ pl_upto c0) (pl_earlier c1 ++ pl_upto c1)).
  2:{ pose proof (pr_past []) as P. now rewrite !app_nil_r in P. }
  rewrite (text_at_agree d vs (pl_earlier c0 ++ pl_upto c0) (pl_earlier c1 ++ pl_upto c1)).
  2:{ pose proof (pr_past []) as P. now rewrite !app_nil_r in P. }
  rewrite (pr_past vs _ (says_fg d)), (pr_past vs _ (says_jp d)), (pr_past vs _ (says_jl d)), (pr_past vs _ (says_font d)),
    (pr_past vs _ says_spacing), (pr_all _ (says_bg d)), (pr_all _ (says_times d)) by (split; reflexivity).
  reflexivity.
Qed.

Lemma pr_colors vs : graphic_colors d c0 vs = graphic_colors d c1 vs.
Proof.
  unfold graphic_colors, fg_of, bg_of.
  rewrite (pr_past vs _ (says_fg d)), (pr_all _ (says_bg d)) by (split; reflexivity). reflexivity.
Qed.

Lemma pr_texts vs : forall done, texts d c0 done vs = texts d c1 done vs.
Proof.
  induction vs as [|v vs IH]; intros done; [reflexivity|]. cbn [texts]. rewrite IH. destruct v; rewrite ?pr_setting; reflexivity.
Qed.

Lemma pr_graphics : forall done vs p q, Graphics d c0 done vs p q -> Graphics d c1 done vs p q.
Proof.
  induction 1 as [|done n pos r p q q' HT HG IH|done rect clr r p q q' HT HG IH|done v r p q H1 H2 HG IH].
  - constructor.
  - eapply Gr_graphic; eauto. rewrite <- pr_colors. exact HT.
  - eapply Gr_rect; eauto. rewrite <- pr_colors. exact HT.
  - apply Gr_other; auto.
Qed.

Lemma pr_tag before v f : TagFault d c1 before v f -> TagFault d c0 before v f.
Proof.
  intros F. inversion F as [v' B R|r M|t L|h L B|n L B]; subst; try rewrite <- pr_setting in L.
  - now apply Tg_bad.
  - now apply Tg_edges.
  - now apply Tg_text.
  - now apply Tg_char.
  - now apply Tg_line.
Qed.

Lemma pr_no_tag vs : NoFault (TagFault d c0) vs -> NoFault (TagFault d c1) vs.
Proof. intros N a x b f E F. apply pr_tag in F. exact (N a x b f E F). Qed.
End Place.

(** ** Lines as values *)

Definition txt (l : str) : list Value := match l with [] => [] | _ => [VText l] end.
Fixpoint line_values (used : list str) : list Value :=
  match used with
  | [] => []
  | l :: r => match r with [] => txt l | _ => txt l ++ VNewLine None :: line_values r end
  end.

Lemma line_values_cons l m r : line_values (l :: m :: r) = txt l ++ VNewLine None :: line_values (m :: r).
Proof. reflexivity. Qed.

Lemma line_values_in used v : In v (line_values used) -> v = VNewLine None \/ exists t, v = VText t /\ t <> [] /\ In t used.
Proof.
  assert (HT : forall l, In v (txt l) -> exists t, v = VText t /\ t <> [] /\ l = t).
  { intros [|c l]; [intros []|]. intros [<-|[]]. exists (c :: l). splits; auto. discriminate. }
  induction used as [|l [|m r] IH]; [intros []| |].
  - cbn [line_values]. intros I. apply HT in I as (t & -> & N & ->). right. exists t. splits; auto. now left.
  - rewrite line_values_cons. intros I. apply in_app_or in I as [I|[<-|I]]; auto.
    + apply HT in I as (t & -> & N & ->). right. exists t. splits; auto. now left.
    + destruct (IH I) as [->|(t & -> & N & J)]; auto. right. exists t. splits; auto. now right.
Qed.

Lemma agree_lines used : agree [] (line_values used).
Proof.
  intros A f x [S1 S2]. cbn [in_force]. symmetry. assert (HI : forall v, In v (line_values used) -> f v = None).
  { intros v I. apply line_values_in in I as [->|(t & -> & _)]; auto. }
  revert x. induction (line_values used) as [|v vs IH]; intros x; [reflexivity|]. cbn [in_force].
  rewrite (HI v) by now left. apply IH. intros u I. apply HI. now right.
Qed.

(** Values that set neither text nor fonts. *)
Definition quiet (v : Value) : Prop :=
  match v with VSpacingCharacter _ | VNewLine (Some _) => False | _ => True end.
Definition room_left (v : Value) : Prop :=
  match v with VText _ | VNewLine _ | VHexadecimalCharacter _ | VFont _ | VTextRectangle _ | VNewPage => False | _ => True end.

(** The values of an area before and after lines are put into it.  [fs] is the font
    in force where it starts. *)
Inductive AreaG (d : Dms) (r : Rectangle) (fs : Z * option Z) : list Value -> list Value -> Prop :=
| AG_same x : AreaG d r fs x x
| AG_lines pre post used f n : Forall room_left pre -> Forall (fun v => is_font v = true) post ->
    FirstFont (d_fonts d) (fst fs) f -> (forall k, snd fs = Some k -> k = font_version_id f) ->
    RectLines d r (fst fs) n -> Z.of_nat (List.length used) <= n -> (List.length used <= 256)%nat ->
    Forall (fun t => Forall text_char t /\ exists cs, Spells f t cs /\ line_width (f_char_spacing f) (map c_width cs) <= rwidth r) used ->
    AreaG d r fs (pre ++ post) (pre ++ line_values used ++ post).

Lemma area_agree d r fs x y : AreaG d r fs x y -> agree x y.
Proof.
  intros [|pre post used f n H1 H2 H3 H4 H5 H6 H7 H8]; [apply agree_refl|].
  apply agree_app; [apply agree_refl|]. apply (agree_app [] (line_values used)); auto using agree_refl, agree_lines.
Qed.

Lemma quiet_lead vs x : Forall quiet vs -> x = None -> in_force says_lead x vs = None.
Proof.
  intros Q ->. apply (in_force_ok (fun o => o = None)); auto. rewrite Forall_forall in Q. intros v y I E. specialize (Q v I).
  destruct v as [| | | | | | | | | | | | | |[n|]| | | | | | |]; try discriminate E; try destruct Q. now injection E.
Qed.

Lemma quiet_spacing vs x : Forall quiet vs -> x = None -> in_force says_spacing x vs = None.
Proof.
  intros Q ->. apply (in_force_ok (fun o => o = None)); auto. rewrite Forall_forall in Q. intros v y I E. specialize (Q v I).
  destruct v; try discriminate E; try destruct Q. now injection E.
Qed.

(** ** The texts of an area with lines *)

Definition lined (st : RenderState) (i : Z) : RenderState := set_span (set_line st i) 0.

Fixpoint line_spans (st : RenderState) (i : Z) (used : list str) : list Span :=
  match used with
  | [] => []
  | l :: r =>
      match r with
      | [] => match l with [] => [] | _ => [SpText (lined st i) l] end
      | _ => SpText (lined st i) l :: line_spans st (i + 1) r
      end
  end.

Lemma line_spans_cons st i l m r : line_spans st i (l :: m :: r) = SpText (lined st i) l :: line_spans st (i + 1) (m :: r).
Proof. reflexivity. Qed.

Lemma line_spans_nth st used : forall i j s, nth_error (line_spans st i used) j = Some s ->
  exists t, nth_error used j = Some t /\ s = SpText (lined st (i + Z.of_nat j)) t.
Proof.
  induction used as [|l [|m r] IH]; intros i j s E.
  - destruct j; discriminate E.
  - destruct l as [|c l]; [destruct j; discriminate E|]. destruct j as [|[|j]]; try discriminate E.
    injection E as <-. exists (c :: l). split; [reflexivity|]. do 2 f_equal. lia.
  - rewrite line_spans_cons in E. destruct j as [|j].
    + injection E as <-. exists l. split; [reflexivity|]. do 2 f_equal. lia.
    + cbn [nth_error] in *. apply IH in E as (t & E & ->). exists t. split; auto. do 2 f_equal. lia.
Qed.

Lemma line_spans_length st used : forall i, (List.length (line_spans st i used) <= List.length used)%nat.
Proof.
  induction used as [|l [|m r] IH]; intros i; [cbn; lia|destruct l; cbn; lia|].
  rewrite line_spans_cons. cbn [List.length]. specialize (IH (i + 1)). cbn [List.length] in IH. lia.
Qed.

Lemma setting_text d c done t : setting d c (done ++ [VText t]) = set_span (setting d c done) (rs_span (setting d c done) + 1).
Proof. rewrite setting_snoc. reflexivity. Qed.
Lemma setting_nl d c done : setting d c (done ++ [VNewLine None])
  = set_span (set_line (set_line_spacing (setting d c done) None) (rs_line (setting d c done) + 1)) 0.
Proof. rewrite setting_snoc. reflexivity. Qed.

Lemma texts_app d c a : forall done b, texts d c done (a ++ b) = texts d c done a ++ texts d c (done ++ a) b.
Proof.
  induction a as [|v a IH]; intros done b; cbn [app].
  - now rewrite app_nil_r.
  - rewrite texts_cons, IH, (texts_cons d c done v a), <- !app_assoc. reflexivity.
Qed.

Lemma blank_text a t : blank_line (a ++ [VText t]) = false.
Proof. unfold blank_line. now rewrite in_force_snoc. Qed.
Lemma blank_nl a n : blank_line (a ++ [VNewLine n]) = true.
Proof. unfold blank_line. now rewrite in_force_snoc. Qed.

Lemma texts_lines d c st used : rs_line_spacing st = None -> forall done i,
  setting d c done = lined st i -> blank_line done = true ->
  texts d c done (line_values used) = line_spans st i used.
Proof.
  intros HL. induction used as [|l [|m r] IH]; intros done i HS HB.
  - reflexivity.
  - destruct l as [|x l]; [reflexivity|]. cbn [line_values txt line_spans texts app]. now rewrite HS.
  - rewrite line_values_cons, line_spans_cons. destruct l as [|x l]; cbn [txt app].
    + rewrite texts_cons. cbn [texts app]. rewrite HB, HS. cbn [app]. f_equal. apply IH; [|apply blank_nl].
      rewrite setting_nl, HS. unfold lined, set_span, set_line, set_line_spacing. cbn. rewrite HL. reflexivity.
    + rewrite texts_cons. cbn [texts app]. rewrite HS. f_equal. rewrite blank_text. cbn [app]. apply IH; [|apply blank_nl].
      rewrite setting_nl, setting_text, HS. unfold lined, set_span, set_line, set_line_spacing. cbn. rewrite HL. reflexivity.
Qed.

Lemma text_no_fault d c done t f : rs_span (setting d c done) = 0 -> ~ TagFault d c done (VText t) f.
Proof. intros E F. inversion F as [v B R| |t' L| |]; subst; [inversion B|lia]. Qed.
Lemma nl_no_fault d c done f : rs_line (setting d c done) < 255 -> ~ TagFault d c done (VNewLine None) f.
Proof. intros E F. inversion F as [v B R| | | |n L B]; subst; [inversion B|lia]. Qed.
Lemma font_no_fault d c done x f : ~ TagFault d c done (VFont x) f.
Proof. intros F. inversion F as [v B R| | | |]; subst; inversion B. Qed.

Lemma tags_lines d c st used : rs_line_spacing st = None -> forall done i,
  setting d c done = lined st i -> NoFault (TagFault d c) done -> i + Z.of_nat (List.length used) <= 256 ->
  NoFault (TagFault d c) (done ++ line_values used).
Proof.
  intros HL. induction used as [|l [|m r] IH]; intros done i HS HN L.
  - cbn [line_values]. now rewrite app_nil_r.
  - destruct l as [|x l]; cbn [line_values txt]; [now rewrite app_nil_r|]. apply NoFault_snoc. split; auto. intros f.
    apply text_no_fault. now rewrite HS.
  - rewrite line_values_cons. cbn [List.length] in L, IH. destruct l as [|x l]; cbn [txt app].
    + change (done ++ VNewLine None :: line_values (m :: r)) with (done ++ [VNewLine None] ++ line_values (m :: r)).
      rewrite app_assoc. apply (IH _ (i + 1)); [| |lia].
      * rewrite setting_nl, HS. unfold lined, set_span, set_line, set_line_spacing. cbn. rewrite HL. reflexivity.
      * apply NoFault_snoc. split; auto. intros f. apply nl_no_fault. rewrite HS. cbn. lia.
    + change (done ++ VText (x :: l) :: VNewLine None :: line_values (m :: r))
        with (done ++ [VText (x :: l)] ++ [VNewLine None] ++ line_values (m :: r)).
      rewrite !app_assoc. apply (IH _ (i + 1)); [| |lia].
      * rewrite setting_nl, setting_text, HS. unfold lined, set_span, set_line, set_line_spacing. cbn. rewrite HL. reflexivity.
      * apply NoFault_snoc. split; [apply NoFault_snoc; split; auto|].
        { intros f. apply text_no_fault. now rewrite HS. }
        intros f. apply nl_no_fault. rewrite setting_text, HS. cbn. lia.
Qed.

Lemma tags_fonts d c post : Forall (fun v => is_font v = true) post -> forall done,
  NoFault (TagFault d c) done -> NoFault (TagFault d c) (done ++ post).
Proof.
  induction 1 as [|v post E H IH]; intros done HN; [now rewrite app_nil_r|].
  change (done ++ v :: post) with (done ++ [v] ++ post). rewrite app_assoc. apply IH. apply NoFault_snoc. split; auto.
  intros f. destruct v; try discriminate E. apply font_no_fault.
Qed.

Lemma texts_fonts d c post : Forall (fun v => is_font v = true) post -> forall done, texts d c done post = [].
Proof. induction 1 as [|v post E H IH]; intros done; [reflexivity|]. destruct v; try discriminate E. cbn [texts app]. apply IH. Qed.

Lemma texts_room d c pre : Forall room_left pre -> forall done, texts d c done pre = [].
Proof.
  induction 1 as [|v pre E H IH]; intros done; [reflexivity|]. destruct v; try destruct E; cbn [texts app]; apply IH.
Qed.

Lemma blank_room pre : Forall room_left pre -> blank_line pre = true.
Proof.
  intros H. unfold blank_line. apply (in_force_ok (fun b => b = true)); auto. rewrite Forall_forall in H.
  intros v y I E. specialize (H v I). destruct v; try destruct H; discriminate E.
Qed.

Lemma line_room d pre : Forall room_left pre -> forall past, line_at d past 0 pre = 0.
Proof.
  induction 1 as [|v pre E H IH]; intros past; [reflexivity|]. cbn [line_at].
  destruct v; try destruct E; cbn [changes_jp says_jp]; auto. destruct (negb _); auto.
Qed.
Lemma number_room d pre : Forall room_left pre -> forall past, text_at d past 0 pre = 0.
Proof.
  induction 1 as [|v pre E H IH]; intros past; [reflexivity|]. cbn [text_at].
  destruct v; try destruct E; cbn [changes_jp says_jp]; auto. destruct (negb _); auto.
Qed.

Lemma font_room d pre x : Forall room_left pre -> in_force (says_font d) x pre = x.
Proof.
  intros H. apply (in_force_ok (fun y => y = x)); auto. rewrite Forall_forall in H.
  intros v y I E. specialize (H v I). destruct v; try destruct H; discriminate E.
Qed.

(** A place where lines can be put. *)
Definition good_place (d : Dms) (c : Place) : Prop :=
  rect_in d (pl_rect c)
  /\ on_boundary (char_width_pixels (d_vms_cfg d)) (rx (pl_rect c) - 1)
  /\ on_boundary (char_height_pixels (d_vms_cfg d)) (ry (pl_rect c) - 1).

Definition jl_good (j : JustificationLine) : Prop := j = JlLeft \/ j = JlCenter \/ j = JlRight.
Definition jp_good (j : JustificationPage) : Prop := j = JpTop \/ j = JpMiddle \/ j = JpBottom.
Definition placeable (d : Dms) (past : list Value) : Prop := jl_good (jl_of d past) /\ jp_good (jp_of d past).

Lemma placeable_app d past vs : PlaceableDefaults d -> placeable d past -> (forall u, In u vs -> ~ BadTag d u) ->
  placeable d (past ++ vs).
Proof.
  intros [D1 D2] [P1 P2] HB. unfold placeable, jl_of, jp_of in *. rewrite !in_force_app.
  split; apply in_force_ok; auto; intros v y I E; specialize (HB v I); destruct v; try discriminate E; cbn in E; injection E as <-.
  - destruct j as [j|]; [|exact D1]. cbn [or_else]. unfold jl_good.
    destruct j; auto; exfalso; apply HB; constructor; auto.
  - destruct j as [j|]; [|exact D2]. cbn [or_else]. unfold jp_good.
    destruct j; auto; exfalso; apply HB; constructor; auto.
Qed.

Lemma lines_stack d r n f k m : table_fields (d_fonts d) -> FirstFont (d_fonts d) n f -> RectLines d r n k -> 0 <= m <= k -> 0 <= rheight r ->
  stack_of d f m <= rheight r.
Proof.
  intros T HF HL Hm HR. assert (font_fields f) as (_ & U1 & _ & U2 & _).
  { destruct HF as (_ & a & b & E & _). unfold table_fields in T. rewrite Forall_forall in T. apply T. rewrite E. apply in_elt. }
  unfold u8 in *. unfold stack_of. destruct (Z.eqb_spec m 0) as [->|N]; [lia|].
  destruct HL as [NF|g k Hg E [L _]|g Hg E L|g k Hg E G [L _]]; try lia.
  - pose proof (FirstFont_fun _ _ _ _ HF Hg) as <-. replace (_ =? 0) with true by lia.
    destruct L as [L|[L1 L2]]; [lia|].
    assert (m * f_height f <= k * f_height f) by (apply Z.mul_le_mono_nonneg_r; lia).
    assert ((m - 1) * f_line_spacing f <= (k - 1) * f_line_spacing f) by (apply Z.mul_le_mono_nonneg_r; lia). lia.
  - pose proof (FirstFont_fun _ _ _ _ HF Hg) as <-. replace (_ =? 0) with false by lia.
    destruct L as [L|[L1 L2]]; [lia|].
    assert (m * f_height f <= k * f_height f) by (apply Z.mul_le_mono_nonneg_r; lia).
    assert (k * f_height f <= k * char_height_pixels (d_vms_cfg d)) by (apply Z.mul_le_mono_nonneg_l; lia). lia.
Qed.

Section Area.
Variables (d : Dms) (c : Place) (pre post : list Value) (used : list str).
Hypothesis HB : Built d.
Hypothesis HU : Usable d.
Hypothesis HFC : FontsInCells d.
Let fs := font_of d (pl_earlier c ++ pl_upto c).
Variables (f : Font) (n : Z).
Hypothesis Hpre : Forall room_left pre.
Hypothesis Hpost : Forall (fun v => is_font v = true) post.
Hypothesis HF : FirstFont (d_fonts d) (fst fs) f.
Hypothesis HV : forall k, snd fs = Some k -> k = font_version_id f.
Hypothesis HL : RectLines d (pl_rect c) (fst fs) n.
Hypothesis HN : Z.of_nat (List.length used) <= n.
Hypothesis HN' : (List.length used <= 256)%nat.
Hypothesis HT : Forall (fun t => Forall text_char t /\ exists cs, Spells f t cs
  /\ line_width (f_char_spacing f) (map c_width cs) <= rwidth (pl_rect c)) used.
Hypothesis Hplace : place_ok c pre.
Hypothesis Hgood : good_place d c.
Hypothesis HQ : Forall quiet (pl_earlier c ++ pl_upto c).
Hypothesis HQ' : Forall quiet pre.
Hypothesis HJ : placeable d ((pl_earlier c ++ pl_upto c) ++ pre).

Let st := setting d c pre.

Lemma area_lead : rs_line_spacing st = None.
Proof.
  unfold st. cbn [setting rs_line_spacing]. apply quiet_lead; auto. apply Forall_app in HQ as [_ Q]. apply Forall_app. auto.
Qed.
Lemma area_spacing : rs_char_spacing st = None.
Proof. unfold st. cbn [setting rs_char_spacing]. apply quiet_spacing; auto. apply Forall_app. auto. Qed.
Lemma area_font : font_of d ((pl_earlier c ++ pl_upto c) ++ pre) = fs.
Proof. unfold fs, font_of. rewrite in_force_app. apply font_room; auto. Qed.
Lemma area_lined : setting d c pre = lined st 0.
Proof.
  assert (rs_line st = 0) as E1 by (unfold st; cbn [setting rs_line]; now apply line_room).
  assert (rs_span st = 0) as E2 by (unfold st; cbn [setting rs_span]; now apply number_room).
  fold st. unfold lined, set_span, set_line. destruct st as [a1 a2 a3 a4 a5 a6 a7 a8 a9 a10 a11 a12].
  cbn [rs_ctx rs_on_time rs_off_time rs_rect rs_jp rs_jl rs_font rs_font_vid rs_line_spacing rs_char_spacing rs_line rs_span] in *.
  now rewrite E1, E2.
Qed.

Lemma area_texts : texts d c [] (pre ++ line_values used ++ post) = line_spans st 0 used.
Proof.
  rewrite !texts_app. rewrite (texts_room d c pre Hpre), (texts_fonts d c post Hpost), app_nil_r. cbn [app].
  apply texts_lines; [exact area_lead|exact area_lined|now apply blank_room].
Qed.

Lemma area_tags : NoFault (TagFault d c) pre -> NoFault (TagFault d c) (pre ++ line_values used ++ post).
Proof.
  intros H. rewrite app_assoc. apply tags_fonts; auto. apply (tags_lines d c st used area_lead pre 0 area_lined); auto. clear - HN'. lia.
Qed.

Lemma area_text e : ~ TextFails d (texts d c [] (pre ++ line_values used ++ post)) e.
Proof.
  rewrite area_texts. destruct (Built_parts d HB) as (T & V & C). destruct Hgood as (G1 & G2 & G3). destruct HJ as [J1 J2].
  pose proof (place_ok_past c pre Hplace) as HPast.
  pose proof (font_used d _ HPast) as HFU. rewrite area_font in HFU.
  assert (HFf : rs_font st = fst fs) by (unfold st; cbn [setting rs_font]; now rewrite area_font).
  assert (HFv : rs_font_vid st = snd fs) by (unfold st; cbn [setting rs_font_vid]; now rewrite area_font).
  apply (fit_sound d HB (pl_rect c) (rs_jp st) (rs_jl st) f); auto.
  - intros i s E. apply line_spans_nth in E as (t & E & ->).
    assert (i < List.length used)%nat as Li by (apply nth_error_Some; congruence).
    apply nth_error_In in E. rewrite Forall_forall in HT. destruct (HT t E) as (Ht & cs & Hs & W).
    unfold fit_span. cbn [span_state s_line s_number s_jp s_jl s_rect]. unfold s_line, s_number, s_jp, s_jl, s_rect, span_state, lined, set_span, set_line.
    cbn [rs_line rs_span rs_jp rs_jl rs_rect rs_char_spacing rs_line_spacing rs_font rs_font_vid].
    rewrite area_lead, area_spacing. split; [lia|]. do 6 (split; [reflexivity|]). split; [|split].
    + rewrite HFf. now apply Proofs_Page.font_sound.
    + unfold span_fields, s_line, s_number, span_state.
      cbn [rs_line rs_span rs_char_spacing rs_line_spacing]. rewrite ?area_lead, ?area_spacing. unfold u8.
      splits; try discriminate; try lia. exists t. split; [constructor|]. rewrite Forall_forall in Ht. intros I.
      specialize (Ht 0 I). unfold text_char in Ht. lia.
    + exists cs. split; auto. split; [|exists t; split; [constructor|auto]]. unfold FontOf. cbn [span_state rs_font rs_font_vid].
      rewrite HFf, HFv. auto.
  - apply HFC.
    + destruct HF as (_ & a & b & -> & _). apply in_elt.
    + unfold used_font. destruct HF as (E & _). rewrite E. destruct HFU as [|D]; [now left|].
      destruct (Z.eq_dec (fst fs) 0); [right; lia|now left].
  - apply (lines_stack d (pl_rect c) (fst fs) f n); auto.
    + pose proof (line_spans_length st used 0). lia.
    + apply G1.
Qed.
End Area.

(** ** Text rectangles that grow *)

Lemma pr_sym c0 c1 : PR c0 c1 -> PR c1 c0.
Proof. intros [H1 H2 H3 H4 H5 H6]. split; auto; intros A f x S; symmetry; auto. Qed.

Lemma pr_draw d c0 c1 a q v e : PR c0 c1 -> DrawFault d c1 a q v e -> DrawFault d c0 a q v e.
Proof.
  intros H D. inversion D as [v' B|n pos e' T|r clr e' T M|r clr M U|v' N M]; subst.
  - now constructor.
  - apply Df_graphic. rewrite (pr_colors d c0 c1 H). exact T.
  - apply Df_rect; auto. now rewrite (pr_colors d c0 c1 H).
  - now constructor.
  - now constructor.
Qed.

Lemma draw_none d c a q v e : (exists t, v = VText t) \/ v = VNewLine None \/ is_font v = true -> ~ DrawFault d c a q v e.
Proof.
  intros H D. assert (HR : Renderable d v /\ ~ BadForeground d v /\ (forall n pos, v <> VGraphic n pos) /\ forall r clr, v <> VColorRectangle r clr).
  { destruct H as [(t & ->)|[->|E]]; [| |destruct v; try discriminate E]; splits; try exact I; try discriminate; intros B; inversion B. }
  destruct HR as (R1 & R2 & R3 & R4). inversion D; subst; auto; try (eapply R3; reflexivity); eapply R4; reflexivity.
Qed.

Section Rect.
Variable d : Dms.
Hypothesis HB : Built d.
Hypothesis HU : Usable d.
Hypothesis HFC : FontsInCells d.
Hypothesis HPD : PlaceableDefaults d.

Definition past_of (c : Place) : list Value := pl_earlier c ++ pl_upto c.

Lemma rect_grown c0 c1 x y after p p' q1 q2 e : PR c0 c1 ->
  AreaG d (pl_rect c1) (font_of d (past_of c1)) x y ->
  Graphics d c0 [] x p' q1 -> Accepted d c0 x q1 q2 -> sized p p' ->
  place_ok c1 y -> good_place d c1 -> Forall quiet (past_of c1) -> Forall quiet y -> placeable d (past_of c1) ->
  (after = [] \/ exists r rest, after = VTextRectangle r :: rest /\ GoodTextRect d r /\ measurable d r) ->
  (text_rects (pl_upto c1) <= 49)%nat -> RectFails d c1 y after p e -> False.
Proof.
  intros HP HA G HAc HS Hok HG HQ HQy HJ Haft HN F.
  pose proof HAc as (HX & HD & HTG & _ & HTF).
  destruct F as [a v b q f E G' FF D|q f G' FF FT|q f G' FF FT TF|q q' G' HA' FT EN].
  - apply (pr_draw d c0) in D; auto. apply (pr_graphics d c1 c0 (pr_sym _ _ HP)) in G'.
    destruct HA as [x|pre post used g n H1 H2 H3 H4 H5 H6 H7 H8].
    + subst x. eapply (draw_excl d c0 a v b p p'); eauto. apply HD. apply in_elt.
    + assert ((exists b', pre = a ++ v :: b') \/ In v (line_values used ++ post)) as [(b' & ->)|I].
      { clear - E. revert a E. induction pre as [|u pre IH]; intros a E; cbn [app] in E.
        - right. rewrite E. apply in_elt.
        - destruct a as [|u' a]; cbn [app] in E; injection E as -> E; [left; now exists pre|].
          apply IH in E as [(b' & ->)|I]; auto. left. now exists b'. }
      * rewrite <- app_assoc in G. cbn [app] in G. eapply (draw_excl d c0 a v _ p p'); eauto. apply HD.
        rewrite <- app_assoc. apply in_elt.
      * revert D. apply draw_none. apply in_app_or in I as [I|I].
        -- apply line_values_in in I as [->|(t & -> & _)]; eauto.
        -- rewrite Forall_forall in H2. auto.
  - apply (First_not _ _ _ FT). apply accepted_tags; auto. destruct HA as [x|pre post used g n H1 H2 H3 H4 H5 H6 H7 H8].
    + now apply (pr_no_tag d c0 c1 HP).
    + apply Forall_app in HQy as [HQ1 _].
      apply (area_tags d c1 pre post used H1 H2 H7 HQ HQ1). apply (pr_no_tag d c0 c1 HP). eapply NoFault_app; eauto.
  - destruct HA as [x|pre post used g n H1 H2 H3 H4 H5 H6 H7 H8].
    + rewrite <- (pr_texts d c0 c1 HP) in TF. exact (HTF f TF).
    + apply Forall_app in HQy as [HQ1 _].
      refine (area_text d c1 pre post used HB HU HFC g n H1 H2 H3 H4 H5 H6 H7 H8 _ HG HQ HQ1 _ f TF).
      * destruct Hok as (K1 & K2 & K3 & K4). apply Forall_app in K4 as [K4 _]. unfold place_ok. auto.
      * apply placeable_app; auto. intros u I. apply HD. apply in_or_app. now left.
  - lia.
Qed.

(** ** Pages that grow *)

Inductive PGrow : Rectangle -> Z * option Z -> list Value -> list Value -> Prop :=
| PG_last r fs x y : no_text_rect x -> no_text_rect y -> AreaG d r fs x y -> PGrow r fs x y
| PG_rect r fs x y q x' y' : no_text_rect x -> no_text_rect y -> AreaG d r fs x y ->
    PGrow (text_rect d q) (in_force (says_font d) fs x) x' y' ->
    PGrow r fs (x ++ VTextRectangle q :: x') (y ++ VTextRectangle q :: y').

Lemma pgrow_cut r fs x vs after : PGrow r fs x (vs ++ after) -> no_text_rect vs ->
  (after = [] \/ exists r rest, after = VTextRectangle r :: rest) ->
  exists x1 after0, x = x1 ++ after0 /\ no_text_rect x1 /\ AreaG d r fs x1 vs
    /\ (after = [] /\ after0 = [] \/ exists q rest rest0, after = VTextRectangle q :: rest
          /\ after0 = VTextRectangle q :: rest0 /\ PGrow (text_rect d q) (in_force (says_font d) fs x1) rest0 rest).
Proof.
  intros H N A. remember (vs ++ after) as y eqn:Ey. destruct H as [r fs x y N1 N2 HA|r fs x y q x' y' N1 N2 HA HG].
  - rewrite <- (app_nil_r y) in Ey. apply first_rect in Ey as [-> <-]; auto. exists x, []. rewrite app_nil_r. splits; auto.
  - apply first_rect in Ey as [-> <-]; eauto. exists x, (VTextRectangle q :: x'). splits; auto. right. exists q, y', x'. auto.
Qed.

Lemma pgrow_agree r fs x y : PGrow r fs x y -> agree x y.
Proof.
  induction 1 as [r fs x y N1 N2 HA|r fs x y q x' y' N1 N2 HA HG IH]; [eapply area_agree; eauto|].
  apply agree_app; [eapply area_agree; eauto|]. apply (agree_app [VTextRectangle q] [VTextRectangle q]); auto using agree_refl.
Qed.

Lemma pgrow_rects r fs x y : PGrow r fs x y -> text_rects x = text_rects y.
Proof.
  induction 1 as [r fs x y N1 N2 HA|r fs x y q x' y' N1 N2 HA HG IH]; [now rewrite (rects_none x N1), (rects_none y N2)|].
  rewrite !Proofs_Pages.text_rects_app, (rects_none x N1), (rects_none y N2). cbn [text_rects]. now rewrite IH.
Qed.

Lemma pgrow_tr r fs x y q : PGrow r fs x y -> In (VTextRectangle q) y -> In (VTextRectangle q) x.
Proof.
  induction 1 as [r fs x y N1 N2 HA|r fs x y q' x' y' N1 N2 HA HG IH]; intros I; [now apply N2 in I|].
  apply in_app_or in I as [I|[I|I]]; [now apply N2 in I| |]; apply in_or_app; right; [now left|right; auto].
Qed.

Lemma good_text_rect q : rect_ok q -> GoodTextRect d q -> rect_in d (text_rect d q)
  /\ on_boundary (char_width_pixels (d_vms_cfg d)) (rx (text_rect d q) - 1)
  /\ on_boundary (char_height_pixels (d_vms_cfg d)) (ry (text_rect d q) - 1).
Proof. intros H1 H2. split; [now apply rect_in_good|]. destruct H2 as (_ & _ & _ & B1 & _ & B2 & _). auto. Qed.

Lemma fails_grown : forall c1 y p e, Fails d c1 y p e -> forall c0 x p' q, PR c0 c1 ->
  PGrow (pl_rect c1) (font_of d (past_of c1)) x y ->
  Rendered d (Accepted d) c0 x p' q -> sized p p' ->
  place_ok c1 y -> good_place d c1 -> Forall quiet (past_of c1) -> Forall quiet x -> Forall quiet y ->
  placeable d (past_of c1) ->
  (forall r, In (VTextRectangle r) y -> measurable d r) ->
  (text_rects (pl_upto c1) + text_rects y <= 49)%nat -> False.
Proof.
  induction 1 as [c1 vs after p e N A F|c1 vs r rest p q q' e N G HA HL GR GE HF IH];
    intros c0 x p' qq HP HG HR HS Hok HGp HQ HQx HQy HJ HE HT.
  - apply pgrow_cut in HG as (x1 & after0 & -> & N1 & HAr & HK); auto.
    assert (A0 : after0 = [] \/ exists r rest, after0 = VTextRectangle r :: rest).
    { destruct HK as [[_ ->]|(q0 & rest & rest0 & _ & -> & _)]; eauto. }
    apply rendered_cut in HR as (q1 & q2 & G1 & HAc & HK'); auto.
    apply (rect_grown c0 c1 x1 vs after p p' q1 q2 e); auto.
    + destruct Hok as (K1 & K2 & K3 & K4). apply Forall_app in K4 as [K4 _]. unfold place_ok. auto.
    + now apply Forall_app in HQy.
    + destruct HK as [[-> _]|(q0 & rest & rest0 & -> & -> & _)]; auto. right. exists q0, rest. splits; auto.
      * destruct HK' as [[E' _]|(r & rest' & E' & GR & _)]; [discriminate E'|]. injection E' as <- _. exact GR.
      * apply HE, in_elt.
    + lia.
  - apply pgrow_cut in HG as (x1 & after0 & -> & N1 & HAr & HK); eauto.
    destruct HK as [[E0 _]|(q0 & rest' & rest0 & E0 & -> & HG)]; [discriminate E0|]. injection E0 as <- <-.
    apply rendered_cut in HR as (q1 & q2 & G1 & HAc & HK'); eauto.
    destruct HK' as [[E' _]|(r' & rest'' & E' & _ & HR)]; [discriminate E'|]. injection E' as <- <-.
    pose proof (area_agree _ _ _ _ _ HAr) as AG. destruct HP as [P1 P2 P3 P4 P5 P6].
    unfold past_of in *. apply Forall_app in HQ as [HQ1 HQ2].
    apply Forall_app in HQx as [HQx1 HQx2]. apply Forall_app in HQy as [HQy1 HQy2].
    apply Forall_cons_iff in HQx2 as [_ HQx2]. apply Forall_cons_iff in HQy2 as [_ HQy2].
    assert (HQt : Forall quiet [VTextRectangle r]) by (constructor; [exact I|constructor]).
    destruct Hok as (K1 & K2 & K3 & K4). apply Forall_app in K4 as [K4 K5]. apply Forall_cons_iff in K5 as [K5 K6].
    apply (IH (mkPlace (pl_earlier c0) (pl_page c0) (pl_upto c0 ++ x1 ++ [VTextRectangle r]) (text_rect d r)) rest0 q2 qq);
      cbn [pl_earlier pl_page pl_upto pl_rect]; auto.
    + split; cbn [pl_earlier pl_page pl_upto pl_rect]; auto.
      * apply agree_app; auto. apply agree_app; auto using agree_refl.
      * rewrite !in_force_app, P5, (quiet_lead (pl_upto c1)), (quiet_lead x1), (quiet_lead vs); auto.
      * rewrite !Proofs_Pages.text_rects_app, P6, (rects_none x1 N1), (rects_none vs N). reflexivity.
    + assert (font_of d (pl_earlier c1 ++ pl_upto c1 ++ vs ++ [VTextRectangle r])
              = in_force (says_font d) (font_of d (pl_earlier c1 ++ pl_upto c1)) x1) as ->; [|exact HG].
      unfold font_of. rewrite !in_force_app. cbn [in_force says_font]. symmetry. apply AG. split; reflexivity.
    + apply (sized_trans _ p).
      { apply sized_sym. apply (sized_trans _ q); [eapply graphics_sized; eauto|]. destruct HA as ([S1 _ _ _ _ _] & _). exact S1. }
      apply (sized_trans _ p'); auto. apply (sized_trans _ q1); [eapply graphics_sized; eauto|].
      destruct HAc as ([S1 _ _ _ _ _] & _). exact S1.
    + unfold place_ok. cbn [pl_earlier pl_page pl_upto]. splits; auto. apply Forall_app. split; auto. apply Forall_app. auto.
    + unfold good_place. cbn [pl_rect]. apply good_text_rect; auto.
    + apply Forall_app. split; auto. apply Forall_app. split; auto. apply Forall_app. auto.
    + rewrite !app_assoc. apply placeable_app; auto.
      * apply placeable_app; auto. intros u J. apply HA. exact J.
      * intros u [<-|[]] B. inversion B; subst. auto.
    + intros r0 J. apply HE. apply in_or_app. right. now right.
    + rewrite Proofs_Pages.text_rects_app in HT. rewrite !Proofs_Pages.text_rects_app. cbn [text_rects] in *.
      rewrite (rects_none vs) in * by auto. lia.
Qed.
End Rect.
