(** Messages and signs that render alike. *)

From Coq Require Import String Lia.
From Verif Require Import Base Str Multi Color Raster Font Graphic Config Sign Render
  Spec_Multi Spec_Color Spec_Font Spec_Sign Spec_Render Spec_Gamut Spec_Alike
  Proofs_Str Proofs_Split Proofs_Norm Proofs_Parse Proofs_Tag Proofs_Case Proofs_Iter Proofs_Machine Proofs_Reach Proofs_Pages Proofs_Sign Proofs_Gamut.
Open Scope list_scope.

(** ** Letter case *)

Definition OutSim (x y : M (result Value SyntaxError)) : Prop :=
  match x, y with
  | Val (Ok v), Val (Ok w) => CaseEqValue v w
  | Val (Err e), Val (Err e') => CaseError e e'
  | Panic, Panic => True
  | _, _ => False
  end.

Definition inert (v : Value) : Prop :=
  match v with
  | VManufacturerSpecific _ _ | VManufacturerSpecificEnd _ _ | VMovingText _ _ _ _ _ _ => True
  | _ => False
  end.

Lemma CaseEq_app a b a' b' : CaseEq a a' -> CaseEq b b' -> CaseEq (a ++ b) (a' ++ b').
Proof. apply Forall2_app. Qed.

Lemma CaseEqValue_cases v w : CaseEqValue v w ->
  v = w \/ (inert v /\ inert w /\ value_tag v = value_tag w /\ CaseEq (display v) (display w)).
Proof.
  assert (HR := CaseEq_refl).
  destruct v; try (now left).
  - destruct s as [s|]; [|now left]. destruct w; cbn [CaseEqValue]; try discriminate.
    destruct s0 as [s0|]; [|discriminate]. intros (<- & H). right. cbn [inert value_tag display]. splits; auto.
    repeat (apply CaseEq_app; auto).
  - destruct s as [s|]; [|now left]. destruct w; cbn [CaseEqValue]; try discriminate.
    destruct s0 as [s0|]; [|discriminate]. intros (<- & H). right. cbn [inert value_tag display]. splits; auto.
    repeat (apply CaseEq_app; auto).
  - destruct w; cbn [CaseEqValue]; try discriminate. intros (<- & <- & <- & <- & <- & H).
    right. cbn [inert value_tag display]. splits; auto. repeat (apply CaseEq_app; auto).
Qed.

Lemma OutSim_cases x y : OutSim x y -> x = y
  \/ (exists e e', x = Val (Err e) /\ y = Val (Err e') /\ CaseError e e')
  \/ (exists v w, x = Val (Ok v) /\ y = Val (Ok w) /\ inert v /\ inert w
        /\ value_tag v = value_tag w /\ CaseEq (display v) (display w)).
Proof.
  destruct x as [[v|e]| |], y as [[w|e']| |]; cbn; try contradiction; intros H; auto.
  - destruct (CaseEqValue_cases v w H) as [->|X]; auto. right. right. exists v, w. tauto.
  - right. left. eauto.
Qed.

Definition ResSim {A} (a b : result A SyntaxError) : Prop :=
  match a, b with
  | Ok p, Ok q => p = q
  | Err e, Err e' => CaseError e e'
  | _, _ => False
  end.

Lemma ResSim_refl {A} (a : result A SyntaxError) : ResSim a a.
Proof. destruct a; cbn; auto. constructor. Qed.

Lemma MRel_res {A} (x : M (result A SyntaxError)) : MRel ResSim x x.
Proof. apply MRel_refl. intros. apply ResSim_refl. Qed.

Lemma check_sim d xs ys : Forall2 OutSim xs ys -> MRel ResSim (check_unsupported d (bare xs)) (check_unsupported d (bare ys)).
Proof.
  induction 1 as [|x y xs ys H HF IH]; cbn [bare map check_unsupported]; [constructor|].
  destruct (OutSim_cases _ _ H) as [->|[(e & e' & -> & -> & HE)|(v & w & -> & -> & _ & _ & HT & HD)]].
  - destruct y as [[v|e]| |]; cbn [try]; try exact I; [|constructor].
    destruct (value_tag v); auto. destruct (negb _); [constructor|]. destruct (_ =? _); [constructor|auto].
  - exact HE.
  - cbn [try]. rewrite HT. destruct (value_tag w); auto. destruct (negb _); [now constructor|].
    destruct (_ =? _); [constructor|auto].
Qed.

Lemma update_sim ds xs ys : Forall2 OutSim xs ys -> forall rs,
  MRel (fun a b => fst a = fst b /\ ResSim (snd a) (snd b)) (update_page_loop ds (bare xs) rs) (update_page_loop ds (bare ys) rs).
Proof.
  assert (HR : forall m : M (RenderState * result unit SyntaxError),
            MRel (fun a b => fst a = fst b /\ ResSim (snd a) (snd b)) m m)
    by (intros m; apply MRel_refl; intros a; split; auto using ResSim_refl).
  induction 1 as [|x y xs ys H HF IH]; intros rs; cbn [bare map update_page_loop]; [apply HR|].
  destruct (OutSim_cases _ _ H) as [->|[(e & e' & -> & -> & HE)|(v & w & -> & -> & Iv & Iw & HT & HD)]].
  - destruct y as [[v|e]| |]; cbn [bind]; try apply HR.
    destruct v; auto; try apply HR; destruct (set_background _ _ _) as [ctx [u|e]]; auto; apply HR.
  - cbn. auto.
  - cbn [bind]. destruct v; try contradiction Iv; destruct w; try contradiction Iw; auto.
Qed.

Lemma graphics_sim md d xs ys : Forall2 OutSim xs ys -> forall ctx r,
  MRel ResSim (render_graphics_loop md d (bare xs) ctx r) (render_graphics_loop md d (bare ys) ctx r).
Proof.
  assert (HT : forall A B (m : M (result A SyntaxError)) (k l : A -> M (result B SyntaxError)),
             (forall a, MRel ResSim (k a) (l a)) -> MRel ResSim (try m k) (try m l)).
  { intros A B m k l H. destruct m as [[a|e]| |]; cbn [try]; auto; [constructor|exact I|exact I]. }
  induction 1 as [|x y xs ys H HF IH]; intros ctx r; cbn [bare map render_graphics_loop]; [constructor; reflexivity|].
  destruct (OutSim_cases _ _ H) as [->|[(e & e' & -> & -> & HE)|(v & w & -> & -> & Iv & Iw & _ & HD)]].
  - apply HT. intros v. destruct v; auto; try apply MRel_res.
    + destruct (set_background _ _ _) as [c0 o]; apply HT; auto.
    + destruct (set_foreground _ _ _) as [c0 o]; apply HT; auto.
    + destruct (set_foreground _ _ _) as [c0 o]; apply HT; intros []. apply HT. auto.
    + destruct p as [((x0 & y0) & gid)|]; apply HT; intros; apply HT; intros; apply IH.
  - exact HE.
  - cbn [try]. destruct v; try contradiction Iv; destruct w; try contradiction Iw; exact I.
Qed.

Definition EndSim (a b : AEnd) : Prop :=
  a_rs a = a_rs b /\ a_state a = a_state b /\ a_spans a = a_spans b /\ ResSim (a_res a) (a_res b)
  /\ Forall2 OutSim (a_rest a) (a_rest b).

Lemma rtr_sim md d ds po xs ys : Forall2 OutSim xs ys -> forall rs spans lb,
  MRel EndSim (a_rtr md d ds po xs rs spans lb) (a_rtr md d ds po ys rs spans lb).
Proof.
  induction 1 as [|x y xs ys H HF IH]; intros rs spans lb; cbn [a_rtr].
  - cbn. unfold EndSim. cbn. splits; auto.
  - assert (HE : forall rs st sp r r', ResSim r r' -> MRel EndSim (Val (mkA rs st xs sp r)) (Val (mkA rs st ys sp r'))).
    { intros. cbn. unfold EndSim. cbn. splits; auto. }
    assert (HE' : forall rs st sp r, MRel EndSim (Val (mkA rs st xs sp r)) (Val (mkA rs st ys sp r)))
      by (intros; apply HE, ResSim_refl).
    destruct (OutSim_cases _ _ H) as [->|[(e & e' & -> & -> & HX)|(v & w & -> & -> & Iv & Iw & _ & HD)]].
    + destruct y as [[v|e]| |]; cbn [bind]; try exact I; [|apply HE'].
      destruct v; try (apply IH; fail); try (apply HE'; fail).
      * destruct (set_foreground _ _ _) as [ctx [u|e]]; [apply IH|apply HE'].
      * destruct (is_charb _); [|apply HE']. apply (MRel_bind eq); [now apply MRel_refl|]. intros a b <-. apply IH.
      * destruct j as [[]|]; try apply HE'; apply IH.
      * destruct j as [[]|]; try apply HE'; (destruct (negb _); apply IH).
      * match goal with |- context [if ?c then Val _ else _] => destruct c end; [apply HE'|].
        apply (MRel_bind eq); [now apply MRel_refl|]. intros a b <-. apply IH.
      * destruct ((0 <? char_width d) && _); [apply HE'|apply IH].
      * apply (MRel_bind eq); [now apply MRel_refl|]. intros a b <-. apply IH.
      * apply (MRel_bind eq); [now apply MRel_refl|]. intros a b <-. destruct a; apply HE'.
    + cbn [bind]. apply HE. exact HX.
    + cbn [bind]. destruct v; try contradiction Iv; destruct w; try contradiction Iw; apply IH.
Qed.

Definition ASim (a b : AP) : Prop :=
  ap_rs a = ap_rs b /\ ap_state a = ap_state b /\ Forall2 OutSim (ap_rest a) (ap_rest b).

Definition PairSim {A} (x y : AP * result A SyntaxError) : Prop := ASim (fst x) (fst y) /\ ResSim (snd x) (snd y).

Lemma text_rect_sim md d p q raster : ASim p q -> MRel PairSim (a_text_rect md d p raster) (a_text_rect md d q raster).
Proof.
  intros (HR & HS & HV). unfold a_text_rect. rewrite HR.
  eapply MRel_bind; [apply rtr_sim; exact HV|]. intros e f (E1 & E2 & E3 & E4 & E5).
  destruct (a_res e), (a_res f); cbn in E4; try contradiction.
  - rewrite E3. apply (MRel_bind eq); [now apply MRel_refl|]. intros r r' <-. cbn. unfold PairSim, ASim. cbn.
    splits; auto. apply ResSim_refl.
  - cbn. unfold PairSim, ASim. cbn. splits; auto.
Qed.

Lemma page_loop_sim md d fuel : forall n p q raster, ASim p q ->
  MRel PairSim (a_page_loop md d fuel n p raster) (a_page_loop md d fuel n q raster).
Proof.
  induction fuel as [|f IH]; intros n p q raster HP; cbn [a_page_loop]; [exact I|].
  pose proof HP as (HR & HS & HV). rewrite <- HS.
  assert (HK : forall r : result (Raster rgb) SyntaxError, MRel PairSim (Val (p, r)) (Val (q, r)))
    by (intros r; cbn; split; auto; apply ResSim_refl).
  destruct (ap_state p) as [[]|[]|]; try apply HK. rewrite <- HR.
  eapply MRel_bind; [apply graphics_sim; exact HV|]. intros g g' HG.
  destruct g as [r|e], g' as [r'|e']; cbn in HG; try contradiction; [subst r'|split; auto].
  eapply MRel_bind; [apply text_rect_sim; exact HP|]. intros [p1 r1] [q1 r2] [H1 H2]. cbn [fst snd] in *.
  destruct r1 as [r1|e], r2 as [r2|e']; cbn in H2; try contradiction; [subst r2|split; auto].
  cbv zeta. destruct (_ <? _); [split; auto; constructor|]. now apply IH.
Qed.

Lemma on_page_sim md d p q : ASim p q -> MRel PairSim (a_on_page md d p) (a_on_page md d q).
Proof.
  intros HP. pose proof HP as (HR & HS & HV). unfold a_on_page. cbv zeta.
  eapply MRel_bind; [apply check_sim; exact HV|]. intros c c' HC.
  destruct c as [c|e], c' as [c'|e']; cbn in HC; try contradiction; [|split; auto].
  rewrite HR. eapply MRel_bind; [unfold update_page_state; apply update_sim; exact HV|].
  intros [rs u] [rs' u'] [E1 E2]. cbn [fst snd] in *. subst rs'.
  destruct u as [u|e], u' as [u'|e']; cbn in E2; try contradiction.
  - eapply MRel_bind; [apply page_loop_sim; unfold ASim; cbn; splits; auto|].
    intros [p1 r1] [p2 r2] [H1 H2]. cbn [fst snd] in *.
    destruct r1 as [r1|e], r2 as [r2|e']; cbn in H2; try contradiction; [subst r2|split; auto].
    split; auto. cbn. destruct H1 as (-> & _). reflexivity.
  - split; auto. unfold ASim. cbn. splits; auto.
Qed.

Lemma next_sim md d p q : ASim p q ->
  MRel (fun x y => match fst x, fst y with
                   | Some a, Some b => CaseItem a b | None, None => True | _, _ => False end
                   /\ ASim (snd x) (snd y)) (a_next md d p) (a_next md d q).
Proof.
  intros HP. pose proof HP as (HR & HS & HV). unfold a_next. rewrite <- HS. destruct (ap_state p) eqn:Es.
  - eapply MRel_bind; [apply on_page_sim; exact HP|]. intros [p1 r1] [q1 r2] [H1 H2]. cbn in *. auto.
  - cbn. rewrite HR. split; [reflexivity|]. unfold ASim. cbn. splits; auto.
  - cbn. auto.
Qed.

Lemma take_sim md d n : forall p q, ASim p q -> CaseItems (a_take md d n p) (a_take md d n q).
Proof.
  induction n as [|n IH]; intros p q HP; cbn [a_take]; [constructor|].
  pose proof (next_sim md d p q HP) as HN.
  destruct (a_next md d p) as [[o p']| |], (a_next md d q) as [[o' q']| |]; cbn in HN; try contradiction; cbn [bind]; auto.
  destruct HN as [HO HP']. destruct o as [x|], o' as [x'|]; try contradiction; [|constructor].
  specialize (IH p' q' HP').
  destruct (a_take md d n p') as [l| |], (a_take md d n q') as [l'| |]; cbn in *; try contradiction; auto.
Qed.

Lemma tokens_sim ts ts' : Forall2 CaseToken ts ts' -> Forall (fun t => exists rest, Token t rest) ts ->
  Forall2 OutSim (map try_from ts) (map try_from ts').
Proof.
  induction 1 as [|t t' ts ts' H HF IH]; intros HT; cbn [map]; constructor.
  - inversion HT as [|? ? (rest & HK) _]; subst. destruct H as [t|b b' Hb Hb' HE].
    + destruct (try_from_token t rest HK) as [[_ ->]|[_ (res & -> & _)]]; [exact I|].
      destruct res as [v|e]; cbn; [|constructor]. apply CaseEqValue_refl, CaseEq_refl.
    + rewrite !try_from_tag by auto. pose proof (parse_tag_case b b' HE) as HP.
      destruct (parse_tag b) as [[v|e]| |]; destruct (parse_tag b') as [[v'|e']| |]; try destruct e; try destruct e';
        cbn; try contradiction; auto; destruct HP as [-> ->]; now constructor.
  - apply IH. now inversion HT.
Qed.

Lemma recased_pages md d n ms ms' : Recased ms ms' ->
  CaseItems (pages_take md d n (pages_new d ms)) (pages_take md d n (pages_new d ms')).
Proof.
  intros (ts & ts' & HT & HT' & HF).
  rewrite (take_start md d n ms _ (Reads_new _ _ HT)), (take_start md d n ms' _ (Reads_new _ _ HT')).
  apply take_sim. unfold ASim, a_start. cbn. splits; auto. apply tokens_sim; auto. exact (Tokens_Token _ _ HT).
Qed.

(** ** What pages depend on *)

Lemma try_cong {A B E} (m : M (result A E)) (k l : A -> M (result B E)) : (forall a, k a = l a) -> try m k = try m l.
Proof. intros H. destruct m as [[a|e]| |]; cbn [try]; auto. Qed.
Lemma bind_cong {A B} (m : M A) (k l : A -> M B) : (forall a, m = Val a -> k a = l a) -> bind m k = bind m l.
Proof. intros H. destruct m; cbn [bind]; auto. Qed.

Lemma lookup_none t n : font_lookup t n = None -> forall f, ~ FirstFont t n f.
Proof. intros H f F. apply FirstFont_lookup in F. congruence. Qed.

Lemma same_font_lookup d d' n : SameFont d d' n -> font_lookup (d_fonts d) n = font_lookup (d_fonts d') n.
Proof.
  intros H. destruct (font_lookup (d_fonts d) n) as [f|] eqn:E.
  - symmetry. apply FirstFont_lookup, H. now apply FirstFont_lookup.
  - destruct (font_lookup (d_fonts d') n) as [f|] eqn:E'; auto. exfalso.
    apply FirstFont_lookup, H, FirstFont_lookup in E'. congruence.
Qed.

Lemma same_graphic_lookup d d' n : SameGraphic d d' n -> graphic_lookup (d_graphics d) n = graphic_lookup (d_graphics d') n.
Proof.
  intros H. destruct (graphic_lookup (d_graphics d) n) as [f|] eqn:E.
  - symmetry. apply FirstGraphic_lookup, H. now apply FirstGraphic_lookup.
  - destruct (graphic_lookup (d_graphics d') n) as [f|] eqn:E'; auto. exfalso.
    apply FirstGraphic_lookup, H, FirstGraphic_lookup in E'. congruence.
Qed.

Section Signs.
Variables (d d' : Dms) (ms : str).
Hypotheses (HS : SameLook d d') (HF : forall n, UsesFont d ms n -> SameFont d d' n)
  (HG : forall n, UsesGraphic ms n -> SameGraphic d d' n).

Lemma same_new : rs_new d = rs_new d'.
Proof.
  destruct HS as ((E1 & E2 & E3 & E4 & E5 & E6) & F1 & F2 & F3 & F4 & F5 & F6 & F7 & F8).
  unfold rs_new, dms_color_ctx, foreground_default_rgb, background_default_rgb. cbv zeta.
  rewrite E3, E4, E5, E6, F1, F2, F3, F4, F5, F6, F7, F8. reflexivity.
Qed.

Lemma same_chars : char_width d = char_width d' /\ char_height d = char_height d' /\ r_char_width d = r_char_width d' /\ r_char_height d = r_char_height d'.
Proof.
  destruct HS as ((E1 & E2 & E3 & E4 & E5 & E6) & _). unfold r_char_width, r_char_height, char_width, char_height.
  splits; congruence.
Qed.

Definition fonted (r : RenderState) : Prop := UsesFont d ms (rs_font r).
Definition all_fonted (spans : list Span) : Prop := forall s, In s spans -> fonted (span_state s).

Lemma same_get s : fonted (span_state s) -> rs_get_font (span_state s) (d_fonts d) = rs_get_font (span_state s) (d_fonts d').
Proof. intros H. unfold rs_get_font. now rewrite (same_font_lookup d d' _ (HF _ H)). Qed.

Lemma same_cs s : fonted (span_state s) -> char_spacing_fonts s (d_fonts d) = char_spacing_fonts s (d_fonts d').
Proof. intros H. unfold char_spacing_fonts. now rewrite (same_get s H). Qed.

Lemma same_width md s : fonted (span_state s) -> span_width md s (d_fonts d) = span_width md s (d_fonts d').
Proof. intros H. unfold span_width. now rewrite (same_get s H), (same_cs s H). Qed.

Lemma same_horiz_loop md rs l : all_fonted l -> forall prev b a, (forall p, prev = Some p -> fonted (span_state p)) ->
  offset_horiz_loop md (d_fonts d) rs l prev b a = offset_horiz_loop md (d_fonts d') rs l prev b a.
Proof.
  induction l as [|s l IH]; intros HA prev b a HP; cbn [offset_horiz_loop]; auto.
  assert (Hs : fonted (span_state s)) by (apply HA; now left).
  assert (Hl : all_fonted l) by (intros x I; apply HA; now right).
  replace (match prev with
           | Some ps => try (Val (char_spacing_between s ps (d_fonts d'))) _
           | None => _ end)
    with (match prev with
           | Some ps => try (Val (char_spacing_between s ps (d_fonts d))) (fun w =>
             if rs_span (span_state s) <=? rs_span rs then
               let! b := chk16 md (b + w) in Val (Ok (b, a))
             else
               let! a := chk16 md (a + w) in Val (Ok (b, a)))
           | None => Val (Ok (b, a)) end).
  - apply try_cong. intros [b1 a1]. rewrite (same_width md s Hs). apply try_cong. intros w.
    destruct (_ <? _); apply bind_cong; intros x _; apply IH; auto; intros p [= <-]; auto.
  - destruct prev as [p|]; auto. unfold char_spacing_between. rewrite (same_cs s Hs), (same_cs p (HP p eq_refl)). reflexivity.
Qed.

Lemma all_filter g l : all_fonted l -> all_fonted (filter g l).
Proof. intros H s I. apply filter_In in I. apply H. tauto. Qed.

Lemma same_horiz md l s : all_fonted l -> offset_horiz md d l s = offset_horiz md d' l s.
Proof.
  intros H. unfold offset_horiz. cbv zeta. rewrite same_horiz_loop; auto; [now apply all_filter|discriminate].
Qed.

Lemma same_x md l s : all_fonted l -> span_x md d l s = span_x md d' l s.
Proof.
  intros H. destruct same_chars as (_ & _ & E & _).
  unfold span_x, span_x_left, span_x_center, span_x_right. rewrite (same_horiz md l s H), E. reflexivity.
Qed.

Lemma same_collect l : all_fonted l -> forall acc, collect_lines (d_fonts d) l acc = collect_lines (d_fonts d') l acc.
Proof.
  induction l as [|s l IH]; intros HA acc; cbn [collect_lines]; auto.
  unfold span_height, span_font_spacing. rewrite (same_get s) by (apply HA; now left).
  destruct (rs_get_font _ _); auto. rewrite !IH by (intros x I; apply HA; now right). reflexivity.
Qed.

Lemma same_vert md l s : all_fonted l -> offset_vert md d l s = offset_vert md d' l s.
Proof.
  intros H. destruct same_chars as (_ & E & _). unfold offset_vert. cbv zeta. rewrite same_collect, E; auto. now apply all_filter.
Qed.

Lemma same_y md l s : all_fonted l -> fonted (span_state s) -> span_y md d l s = span_y md d' l s.
Proof.
  intros H Hs. destruct same_chars as (_ & _ & _ & E). unfold span_y, baseline, baseline_top, baseline_middle, baseline_bottom, span_height.
  rewrite (same_vert md l s H), E, (same_get s Hs). reflexivity.
Qed.

Lemma same_spans md all : all_fonted all -> forall l r, all_fonted l -> render_spans_loop md d all l r = render_spans_loop md d' all l r.
Proof.
  intros HA l. induction l as [|s l IH]; intros r Hl; cbn [render_spans_loop]; auto.
  assert (Hs : fonted (span_state s)) by (apply Hl; now left).
  rewrite (same_x md all s HA), (same_y md all s HA Hs), (same_get s Hs).
  do 4 (apply try_cong; intros ?). apply IH. intros x I. apply Hl. now right.
Qed.

Lemma same_text_spans md l r : all_fonted l -> render_text_spans md d l r = render_text_spans md d' l r.
Proof. intros H. unfold render_text_spans. apply try_cong. intros _. now apply same_spans. Qed.

(** *** Text *)

Lemma all_snoc l s : all_fonted l -> fonted (span_state s) -> all_fonted (l ++ [s]).
Proof. intros H Hs x I. apply in_app_or in I as [I|[<-|[]]]; auto. Qed.

Lemma same_rtr md po xs : forall rs spans lb,
  a_rtr md d (rs_new d) po xs rs spans lb = a_rtr md d' (rs_new d') po xs rs spans lb.
Proof.
  destruct same_chars as (E1 & E2 & E3 & E4). rewrite <- same_new.
  induction xs as [|x xs IH]; intros rs spans lb; cbn [a_rtr]; auto.
  apply bind_cong. intros [v|e] _; auto.
  destruct v; auto.
  - destruct (set_foreground _ _ _) as [ctx [u|e]]; auto.
  - destruct (is_charb _); auto. apply bind_cong. auto.
  - destruct j as [[]|]; auto.
  - destruct j as [[]|]; auto; destruct (negb _); auto.
  - rewrite E2. match goal with |- context [if ?c then Val _ else _] => destruct c end; auto. apply bind_cong. auto.
  - rewrite E1. destruct (_ && _); auto.
  - apply bind_cong. auto.
  - unfold update_text_rectangle. rewrite E3, E4. reflexivity.
Qed.

Lemma rtr_fonted md ds po xs : told ms xs -> fonted ds -> forall rs spans lb e, fonted rs -> all_fonted spans ->
  a_rtr md d ds po xs rs spans lb = Val e -> fonted (a_rs e) /\ all_fonted (a_spans e).
Proof.
  intros HT HD. revert HT.
  induction xs as [|x xs IH]; intros HT rs spans lb e HO HA H; cbn [a_rtr] in H.
  - injection H as <-. auto.
  - apply bind_val in H as (r & -> & H). pose proof (told_cons _ _ _ HT) as HT'.
    assert (stop : forall st res, Val (mkA rs st xs spans res) = Val e -> fonted (a_rs e) /\ all_fonted (a_spans e))
      by (intros st res [= <-]; auto).
    destruct r as [v|er]; [|eapply stop; eauto].
    destruct v; try (apply IH in H; auto; fail); try (eapply stop; eauto; fail).
    + destruct (set_foreground _ _ _) as [ctx [u|er]] eqn:E; [apply IH in H; auto|injection H as <-; auto].
    + apply IH in H; auto. unfold fonted. cbn. destruct f as [[n v]|]; [|exact HD].
      apply (Uf_tag d ms n v). apply HT. now left.
    + destruct (is_charb _); [|eapply stop; eauto]. apply bind_val in H as (sn & _ & H).
      apply IH in H; auto. now apply all_snoc.
    + destruct j as [[]|]; try (eapply stop; eauto; fail); apply IH in H; auto.
    + destruct j as [[]|]; try (eapply stop; eauto; fail); (destruct (negb _); apply IH in H; auto).
    + match type of H with (if ?c then _ else _) = _ => destruct c end; [eapply stop; eauto|].
      apply bind_val in H as (ln & _ & H). apply IH in H; auto. destruct lb; auto. now apply all_snoc.
    + destruct (_ && _); [eapply stop; eauto|]. apply IH in H; auto.
    + apply bind_val in H as (sn & _ & H). apply IH in H; auto. now apply all_snoc.
    + apply bind_val in H as (o & _ & H). destruct o; injection H as <-; auto.
Qed.

Lemma same_graphics md xs : told ms xs -> forall ctx r,
  render_graphics_loop md d (bare xs) ctx r = render_graphics_loop md d' (bare xs) ctx r.
Proof.
  induction xs as [|x xs IH]; intros HT ctx r; cbn [bare map render_graphics_loop]; auto.
  pose proof (told_cons _ _ _ HT) as HT'. unfold bare in IH.
  destruct x as [[v|e]| |]; auto. cbn [try].
  destruct v; auto.
  - destruct (set_background _ _ _) as [c0 [o|e]]; auto.
  - destruct (set_foreground _ _ _) as [c0 [o|e]]; auto.
  - destruct (set_foreground _ _ _) as [c0 [o|e]]; auto. apply try_cong. auto.
  - assert (EG : forall k, get_graphic d n k = get_graphic d' n k).
    { intros k. unfold get_graphic. rewrite (same_graphic_lookup d d' n); auto. apply HG. apply (Ug_tag ms n p). apply HT. now left. }
    destruct p as [((x0 & y0) & gid)|]; rewrite EG; destruct (get_graphic d' n _); auto; apply try_cong; auto.
Qed.

Lemma fonted_new : fonted (rs_new d).
Proof. constructor. Qed.

Lemma same_text_rect md p r : told ms (ap_rest p) -> fonted (ap_rs p) ->
  a_text_rect md d p r = a_text_rect md d' p r.
Proof.
  intros HT HP. unfold a_text_rect. rewrite same_rtr. apply bind_cong. intros e HE. rewrite <- same_rtr in HE.
  apply rtr_fonted in HE as [_ HE]; auto using fonted_new; [|intros s []].
  destruct (a_res e); auto. now rewrite same_text_spans.
Qed.

Lemma text_rect_fonted md p r p' x : told ms (ap_rest p) -> fonted (ap_rs p) -> a_text_rect md d p r = Val (p', x) ->
  told ms (ap_rest p') /\ fonted (ap_rs p').
Proof.
  intros HT HP H. unfold a_text_rect in H. apply bind_val in H as (e & HE & H).
  pose proof (a_rtr_suffix _ _ _ _ _ _ _ _ _ HE) as HX.
  apply rtr_fonted in HE as [HE _]; auto using fonted_new; [|intros s []].
  assert (E : ap_rest p' = a_rest e /\ ap_rs p' = a_rs e).
  { destruct (a_res e); [apply bind_val in H as (r3 & HR & H)|]; injection H as <- _; auto. }
  destruct E as [-> ->]. split; auto. eapply told_suffix; eauto.
Qed.

Lemma same_page_loop md fuel : forall n p r, told ms (ap_rest p) -> fonted (ap_rs p) ->
  a_page_loop md d fuel n p r = a_page_loop md d' fuel n p r.
Proof.
  induction fuel as [|f IH]; intros n p r HT HP; cbn [a_page_loop]; auto.
  destruct (ap_state p) as [[]|[]|]; auto. rewrite same_graphics by auto.
  apply bind_cong. intros [r1|e] _; auto. rewrite same_text_rect by auto.
  apply bind_cong. intros [p1 r2] H. rewrite <- same_text_rect in H by auto. apply text_rect_fonted in H as [H1 H2]; auto.
  destruct r2; auto. cbv zeta. destruct (_ <? _); auto.
Qed.

Lemma page_loop_fonted md fuel : forall n p r p' x, told ms (ap_rest p) -> fonted (ap_rs p) ->
  a_page_loop md d fuel n p r = Val (p', x) -> told ms (ap_rest p') /\ fonted (ap_rs p').
Proof.
  induction fuel as [|f IH]; intros n p r p' x HT HP H; cbn [a_page_loop] in H; [discriminate|].
  destruct (ap_state p) as [[]| |]; try (injection H as <- _; auto; fail).
  apply bind_val in H as (g & _ & H). destruct g as [r1|e]; [|injection H as <- _; auto].
  apply bind_val in H as ([p1 r2] & HX & H). apply text_rect_fonted in HX as [H1 H2]; auto.
  destruct r2 as [r2|e]; [|injection H as <- _; auto]. cbv zeta in H.
  destruct (_ <? _); [injection H as <- _; auto|]. eauto.
Qed.

Lemma update_font ds xs : forall rs rs' u, update_page_loop ds (bare xs) rs = Val (rs', u) -> rs_font rs' = rs_font rs.
Proof.
  induction xs as [|x xs IH]; intros rs rs' u H; cbn [bare map update_page_loop] in H; [injection H as <- _; auto|].
  unfold bare in IH. apply bind_val in H as ([v|e] & _ & H); [|injection H as <- _; auto].
  destruct v; try (apply IH in H; auto; fail); try (injection H as <- _; auto; fail);
    destruct (set_background _ _ _) as [c0 [o|e]]; try (injection H as <- _; auto; fail); apply IH in H; auto.
Qed.

Lemma on_page_fonted md p p' x : told ms (ap_rest p) -> fonted (ap_rs p) -> a_on_page md d p = Val (p', x) ->
  told ms (ap_rest p') /\ fonted (ap_rs p').
Proof.
  intros HT HP H. unfold a_on_page in H. cbv zeta in H.
  apply bind_val in H as ([c|e] & _ & H); [|injection H as <- _; auto].
  apply bind_val in H as ([rs u] & HU & H). apply update_font in HU. cbn in HU.
  assert (HR : fonted rs) by (unfold fonted; now rewrite HU).
  destruct u; [|injection H as <- _; auto].
  apply bind_val in H as ([p1 r1] & HX & H). apply page_loop_fonted in HX as [H1 H2]; auto.
  destruct r1; injection H as <- _; auto.
Qed.

Hypothesis HTags : forall v, Says ms v -> (Supports d v <-> Supports d' v).

Lemma supports_tag e v t : value_tag v = Some t -> (Supports e v <-> contains_tag (supported_multi_tags (d_multi_cfg e)) t = true).
Proof.
  intros E. split.
  - intros H. apply contains_lists, H, value_tag_iff, E.
  - intros H u Hu. apply value_tag_iff in Hu. assert (u = t) as -> by congruence. exact H.
Qed.

Lemma same_check xs : told ms xs -> check_unsupported d (bare xs) = check_unsupported d' (bare xs).
Proof.
  induction xs as [|x xs IH]; intros HT; cbn [bare map check_unsupported]; auto. unfold bare in IH.
  rewrite IH by (intros w I; apply HT; now right).
  destruct x as [[v|e]| |]; cbn [try]; auto. destruct (value_tag v) as [t|] eqn:E; auto.
  assert (HV : Supports d v <-> Supports d' v) by (apply HTags, HT; now left).
  rewrite (supports_tag d v t E), (supports_tag d' v t E) in HV.
  destruct (contains_tag (supported_multi_tags (d_multi_cfg d)) t), (contains_tag (supported_multi_tags (d_multi_cfg d')) t); auto;
    [symmetry|]; exfalso; enough (false = true) by discriminate; apply HV; reflexivity.
Qed.

Lemma same_on_page md p : told ms (ap_rest p) -> fonted (ap_rs p) -> a_on_page md d p = a_on_page md d' p.
Proof.
  intros HT HP. unfold a_on_page. cbv zeta. rewrite same_check, same_new by exact HT. apply bind_cong. intros [c|e] _; [|reflexivity].
  apply bind_cong. intros [rs u] HU. destruct u; [|reflexivity]. apply update_font in HU. cbn in HU.
  rewrite same_page_loop; [reflexivity|exact HT|]. unfold fonted. cbn [ap_rs]. rewrite HU. exact HP.
Qed.

Lemma same_take md n : forall p, told ms (ap_rest p) -> fonted (ap_rs p) -> a_take md d n p = a_take md d' n p.
Proof.
  induction n as [|n IH]; intros p HT HP; cbn [a_take]; [reflexivity|].
  assert (E : a_next md d p = a_next md d' p).
  { unfold a_next. destruct (ap_state p); [|reflexivity..]. rewrite same_on_page by assumption. reflexivity. }
  rewrite E. apply bind_cong. intros [o p'] H. rewrite <- E in H. destruct o; [|reflexivity].
  rewrite IH; [reflexivity|..]; unfold a_next in H; destruct (ap_state p);
    try (apply bind_val in H as ([p1 r1] & HX & H); apply on_page_fonted in HX as [H1 H2]; auto);
    injection H as _ <-; auto.
Qed.
End Signs.

Lemma same_tags_pages md d d' n ms : SameLook d d' -> (forall v, Says ms v -> (Supports d v <-> Supports d' v)) ->
  (forall k, UsesFont d ms k -> SameFont d d' k) ->
  (forall k, UsesGraphic ms k -> SameGraphic d d' k) ->
  pages_take md d n (pages_new d ms) = pages_take md d' n (pages_new d' ms).
Proof.
  intros HS HTags HF HG. destruct (Tokens_exists ms) as (ts & HT).
  rewrite (take_start md d n ms _ (Reads_new _ _ HT)), (take_start md d' n ms _ (Reads_new _ _ HT)).
  unfold a_start. rewrite <- (same_new d d' HS). apply (same_take d d' ms); auto.
  - intros v I. cbn in I. apply in_map_iff in I as (t & E & I).
    pose proof (Tokens_Token _ _ HT) as HK. rewrite Forall_forall in HK. destruct (HK t I) as (rest & HTk).
    exists ts, t. splits; auto. eapply try_Token; eauto.
  - constructor.
Qed.

Lemma same_pages md d d' n ms : SameSign d d' -> (forall k, UsesFont d ms k -> SameFont d d' k) ->
  (forall k, UsesGraphic ms k -> SameGraphic d d' k) ->
  pages_take md d n (pages_new d ms) = pages_take md d' n (pages_new d' ms).
Proof.
  intros [HS E]. apply same_tags_pages; [exact HS|]. intros v _. unfold Supports, Lists. rewrite E. reflexivity.
Qed.
