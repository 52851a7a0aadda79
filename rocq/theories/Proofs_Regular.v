(** Messages with a regular layout, with redundant tags left out and texts joined (C50). *)

From Coq Require Import String ZifyBool ZifyNat.
From Verif Require Import Base Str Multi Color Raster Font Graphic Config Sign Render
  Spec_Multi Spec_Color Spec_Font Spec_Tfon Spec_Graphic Spec_Sign Spec_Render Spec_Same Spec_Layout Spec_Page Spec_Join
  Proofs_Str Proofs_Iter Proofs_Norm Proofs_Machine Proofs_Same Proofs_Pages Proofs_Horiz Proofs_Layout Proofs_Page Proofs_Orderly
  Proofs_Join Proofs_Joined.
From Verif Require Proofs_Unique.
Open Scope list_scope.
Ltac Zify.zify_post_hook ::= Z.div_mod_to_equations.

(** ** Regular layout, value by value *)

Record LS := mkLS { l_jl : JustificationLine; l_jp : JustificationPage; l_fresh : bool; l_text : bool; l_blank : bool }.

Section Regular.
Variable d : Dms.

Definition ls_changes (s : LS) (v : Value) : bool :=
  match says_jp d v with Some j => negb (jp_eqb j (l_jp s)) | None => false end.

Definition ls_next (s : LS) (v : Value) : LS :=
  mkLS (or_else (says_jl d v) (l_jl s)) (or_else (says_jp d v) (l_jp s))
    (match v with
     | VText _ | VHexadecimalCharacter _ => false
     | VNewLine _ | VNewPage | VTextRectangle _ => true
     | _ => if ls_changes s v then true else l_fresh s
     end)
    (match v with
     | VText _ | VHexadecimalCharacter _ | VNewLine _ => true
     | VNewPage | VTextRectangle _ => false
     | _ => l_text s
     end)
    (match v with
     | VText _ | VHexadecimalCharacter _ => false
     | VNewLine _ | VNewPage | VTextRectangle _ => true
     | _ => l_blank s
     end).

Definition ls_ok (s : LS) (v : Value) : Prop :=
  match v with
  | VJustificationLine _ => l_fresh s = true \/ jl_rank (l_jl s) < jl_rank (l_jl (ls_next s v))
  | VJustificationPage _ =>
      l_text s = false \/ ls_changes s v = false \/ jp_rank (l_jp s) < jp_rank (l_jp (ls_next s v))
  | VNewLine _ => l_blank s = true \/ l_fresh s = false
  | _ => True
  end.

Fixpoint RegM (s : LS) (vs : list Value) : Prop :=
  match vs with [] => True | v :: r => ls_ok s v /\ RegM (ls_next s v) r end.

Definition at_ls (a b : list Value) : LS :=
  mkLS (jl_of d (a ++ b)) (jp_of d (a ++ b)) (fresh_at d a true b) (has_text b) (blank_line b).

Lemma says_last {A} (f : Value -> option A) x a v : in_force f x (a ++ [v]) = or_else (f v) (in_force f x a).
Proof. rewrite in_force_snoc. destruct (f v); reflexivity. Qed.

Lemma at_changes a b v : ls_changes (at_ls a b) v = changes_jp d (a ++ b) v.
Proof. reflexivity. Qed.

Lemma at_inner a b v : inner v -> ls_next (at_ls a b) v = at_ls a (b ++ [v]).
Proof.
  intros I. unfold ls_next, at_ls. cbn [l_jl l_jp l_fresh l_text l_blank]. f_equal.
  - unfold jl_of. now rewrite app_assoc, says_last.
  - unfold jp_of. now rewrite app_assoc, says_last.
  - rewrite fresh_at_snoc. destruct v; try contradiction; auto.
  - unfold has_text. rewrite existsb_app. destruct v; try contradiction; cbn [existsb]; rewrite ?orb_false_r, ?orb_true_r; auto.
  - unfold blank_line. rewrite says_last. destruct v; try contradiction; auto.
Qed.

Lemma at_outer a b v : ~ inner v -> ls_next (at_ls a b) v = at_ls (a ++ b ++ [v]) [].
Proof.
  intros I. unfold ls_next, at_ls. cbn [l_jl l_jp l_fresh l_text l_blank]. rewrite app_nil_r. f_equal.
  - unfold jl_of. rewrite app_assoc, says_last. reflexivity.
  - unfold jp_of. rewrite app_assoc, says_last. reflexivity.
  - destruct v; try (exfalso; apply I; exact Logic.I); auto.
  - destruct v; try (exfalso; apply I; exact Logic.I); auto.
  - destruct v; try (exfalso; apply I; exact Logic.I); auto.
Qed.

Lemma ok_at a b v : Orderly d a (b ++ [v]) -> ls_ok (at_ls a b) v.
Proof.
  intros H. specialize (H b v [] eq_refl). destruct v; cbn [ls_ok]; auto.
  - cbn [ls_next at_ls l_jl l_fresh]. unfold jl_of in *. rewrite app_assoc, says_last in H. exact H.
  - rewrite at_changes. cbn [ls_next at_ls l_jp l_text]. unfold jp_of in *. rewrite app_assoc, says_last in H. exact H.
Qed.

Lemma at_ok a b v : Orderly d a b -> ls_ok (at_ls a b) v -> Orderly d a (b ++ [v]).
Proof.
  intros HO H a' w b' E. destruct b' as [|x b' _] using rev_ind.
  - apply app_inj_tail in E as [<- <-]. destruct v; cbn [ls_ok] in *; auto.
    + cbn [ls_next at_ls l_jl l_fresh] in *. unfold jl_of in *. rewrite app_assoc, says_last. exact H.
    + rewrite at_changes in H. cbn [ls_next at_ls l_jp l_text] in *. unfold jp_of in *. rewrite app_assoc, says_last. exact H.
  - assert (E' : b = a' ++ w :: b').
    { change (w :: b' ++ [x]) with ((w :: b') ++ [x]) in E. rewrite app_assoc in E. now apply app_inj_tail in E as [-> _]. }
    now apply (HO a' w b').
Qed.

Lemma inner_dec v : inner v \/ ~ inner v.
Proof. destruct v; cbn; auto. Qed.

Lemma regular_machine vs : forall a b, starts_rect a -> Forall inner b -> Regular d (a ++ b ++ vs) -> RegM (at_ls a b) vs.
Proof.
  induction vs as [|v vs IH]; intros a b S F R; [exact I|]. cbn [RegM]. destruct (inner_dec v) as [N|N].
  - split.
    + apply ok_at. assert (FI : Forall inner (b ++ [v])) by (apply Forall_app; auto).
      apply (R a (b ++ [v]) vs); auto; [now rewrite <- app_assoc|now apply inner_np|now apply Forall_inner_rect].
    + rewrite at_inner by auto. apply IH; auto; [apply Forall_app; auto|]. now rewrite <- app_assoc.
  - split; [destruct v; try (exfalso; apply N; exact Logic.I); exact Logic.I|].
    rewrite at_outer by auto. apply IH; auto.
    + destruct v; try (exfalso; apply N; exact Logic.I).
      * right. left. exists (a ++ b). now rewrite <- app_assoc.
      * right. right. exists (a ++ b). eexists. now rewrite <- app_assoc.
    + cbn [app]. rewrite <- !app_assoc. exact R.
Qed.

Definition ls0 : LS := at_ls [] [].

Lemma regular_start vs : Regular d vs -> RegM ls0 vs.
Proof. intros H. apply (regular_machine vs [] []); auto. now left. Qed.

(** A text rectangle is in order. *)
Lemma machine_orderly rest vs : forall a b, Forall inner vs -> Orderly d a b -> RegM (at_ls a b) (vs ++ rest) ->
  Orderly d a (b ++ vs) /\ RegM (at_ls a (b ++ vs)) rest.
Proof.
  induction vs as [|v vs IH]; intros a b F O R; [rewrite app_nil_r; auto|].
  inversion F; subst. cbn [app RegM] in R. destruct R as [R1 R2]. rewrite at_inner in R2 by auto.
  destruct (IH a (b ++ [v])) as [X Y]; auto; [now apply at_ok|]. rewrite <- app_assoc in X, Y. auto.
Qed.

(** ** Redundant tags, joined texts *)

Lemma machine_trim s f o vs ws : Trimmed s f o vs ws -> forall m,
  l_jl m = or_else (Spec_Multi.s_jl s) (default_justification_line (d_multi_cfg d)) ->
  l_jp m = or_else (Spec_Multi.s_jp s) (default_justification_page (d_multi_cfg d)) ->
  RegM m vs -> RegM m ws.
Proof.
  induction 1 as [s f o v vs ws T IH|s f o v vs ws R J T IH|s f o vs S NS]; intros m E1 E2 H.
  - cbn [RegM] in *. destruct H as [H1 H2]. split; auto. apply IH; auto.
    + cbn [ls_next l_jl]. destruct v; auto.
    + cbn [ls_next l_jp]. destruct v; auto.
  - cbn [RegM] in H. destruct H as [_ H]. apply IH; auto.
    replace (ls_next m v) with m in H; [exact H|]. destruct R as [R1 R2].
    destruct v; try discriminate R1; cbn [apply_setting] in R2; destruct m as [jl jp fr tx bl]; cbn in *.
    + reflexivity.
    + reflexivity.
    + unfold ls_next, ls_changes. cbn. rewrite <- R2 in E1. cbn in E1. now rewrite <- E1.
    + unfold ls_next, ls_changes. cbn. rewrite <- R2 in E2. cbn in E2. rewrite <- E2.
      assert (X : jp_eqb jp jp = true) by now apply jp_eqb_eq. now rewrite X.
  - exact I.
Qed.

Lemma machine_join vs ws : VJ vs ws -> forall m, RegM m vs -> RegM m ws.
Proof.
  induction 1 as [|v vs ws H IH|t u vs ws NT NU H IH]; intros m R; auto; cbn [RegM] in *.
  - destruct R. auto.
  - destruct R as (_ & _ & R). split; [exact I|]. apply IH. exact R.
Qed.

Lemma ok_join vs ws : VJ vs ws -> Forall value_ok vs -> Forall value_ok ws.
Proof.
  induction 1 as [|v vs ws H IH|t u vs ws NT NU H IH]; intros F; auto.
  - inversion F; subst. auto.
  - apply Forall_cons_iff in F as [[F1 F2] F]. apply Forall_cons_iff in F as [[F3 F4] F]. constructor; auto.
    split; [intros X; apply app_eq_nil in X; tauto|]. now apply Forall_app.
Qed.
End Regular.

(** ** Character spacing on signs with cells *)

Definition SpOk (d : Dms) (rs : RenderState) : Prop :=
  forall n, rs_char_spacing rs = Some n -> 0 < char_width d -> n <= 0.

Lemma rtr_spok md d ds po xs : forall rs spans lb e,
  SpOk d rs -> (forall s, In s spans -> SpOk d (span_state s)) ->
  a_rtr md d ds po xs rs spans lb = Val e -> a_res e = Ok tt ->
  SpOk d (a_rs e) /\ forall s, In s (a_spans e) -> SpOk d (span_state s).
Proof.
  induction xs as [|x xs IH]; intros rs spans lb e HR HS H R.
  - cbn in H. injection H as <-. auto.
  - cbn [a_rtr] in H. apply bind_val in H as (r & -> & H). destruct r as [v|er]; [|injection H as <-; discriminate R].
    assert (AD : forall s, span_state s = rs -> forall t, In t (spans ++ [s]) -> SpOk d (span_state t)).
    { intros s E t I. apply in_app_or in I as [I|[<-|[]]]; auto. now rewrite E. }
    destruct v; try (eapply IH; [| |exact H|]; auto; try exact HR; try (apply AD; reflexivity); fail).
    + destruct (set_foreground (rs_ctx rs) c (VColorForeground c)) as [ctx' [[]|]];
        [|injection H as <-; discriminate R]. eapply IH; [| |exact H|]; auto; try exact HR; try (apply AD; reflexivity).
    + destruct (is_charb c); [|injection H as <-; discriminate R].
      apply bind_val in H as (n & _ & H). eapply IH; [| |exact H|]; auto; try exact HR; try (apply AD; reflexivity).
    + match type of H with context [match ?j with _ => _ end] => destruct j as [[]|] end;
        try (injection H as <-; discriminate R); (eapply IH; [| |exact H|]; auto; try exact HR; try (apply AD; reflexivity)).
    + match type of H with context [VJustificationPage ?j] => destruct j as [[]|] end;
        try (injection H as <-; discriminate R);
        (match type of H with context [negb ?c] => destruct (negb c) end; (eapply IH; [| |exact H|]; auto; try exact HR; try (apply AD; reflexivity))).
    + match type of H with context [if ?c then _ else _] => destruct c end; [injection H as <-; discriminate R|].
      apply bind_val in H as (n & _ & H). eapply IH; [| |exact H|]; auto; try exact HR. destruct lb; auto. apply AD; reflexivity.
    + injection H as <-. auto.
    + match type of H with context [if ?c then _ else _] => destruct c eqn:E end; [injection H as <-; discriminate R|].
      eapply IH; [| |exact H|]; auto; try exact HR; try (apply AD; reflexivity). intros n En. cbn in En. injection En as <-. lia.
    + eapply IH; [| |exact H|]; auto; try exact HR; try (apply AD; reflexivity). intros n En. discriminate En.
    + apply bind_val in H as (n & _ & H). eapply IH; [| |exact H|]; auto; try exact HR; try (apply AD; reflexivity).
    + apply bind_val in H as (n & _ & H). destruct n; injection H as <-; auto.
Qed.

(** ** Spans that can be joined *)

Record GoodSpans (d : Dms) (l : list Span) : Prop := {
  gs_numbered : Numbered l; gs_stacked : Stacked l; gs_fields : Forall span_fields l;
  gs_each : forall s, In s l -> Thick (d_fonts d) s /\ Whole d s /\ rect_fits (s_rect s) }.

Lemma join_fields l m : LJ l m -> Forall span_fields l -> (forall x, In x m -> u8 (s_number x)) -> Forall span_fields m.
Proof.
  induction 1 as [|x y l m S L IH|st t u k n l m NT NU L IH]; intros F U; auto.
  - apply Forall_cons_iff in F as [(F1 & F2 & F3 & F4 & w & F5 & F6) F]. constructor; [|apply IH; auto; intros; apply U; now right].
    assert (U0 : u8 (s_number y)) by (apply U; now left).
    destruct S; unfold span_fields, s_line in *; cbn [span_state rs_char_spacing rs_line_spacing rs_line set_span] in *; splits; auto; exists w; split; auto; inversion F5; subst; constructor; auto.
  - apply Forall_cons_iff in F as [(F1 & F2 & F3 & F4 & w & F5 & F6) F].
    apply Forall_cons_iff in F as [(_ & _ & _ & _ & w' & F7 & F8) F]. constructor; [|apply IH; auto; intros; apply U; now right].
    assert (U0 : u8 (s_number (SpText (set_span st n) (t ++ u)))) by (apply U; now left).
    unfold span_fields, s_line in *; cbn [span_state rs_char_spacing rs_line_spacing rs_line set_span] in *; splits; auto.
    exists (t ++ u). inversion F5; subst. inversion F7; subst. split; [constructor|]. intros I. apply in_app_or in I. tauto.
Qed.

Lemma good_join d l m p q : Built d -> GoodSpans d l -> LJ l m -> (forall x, In x m -> u8 (s_number x)) -> Numbered m ->
  render_text_spans Debug d l p = Val (Ok q) -> render_text_spans Debug d m p = Val (Ok q).
Proof.
  intros HB [G1 G2 G3 G4] L U N H. destruct (Proofs_Place.Built_parts d HB) as (T & _ & V).
  apply (render_join d T V l m p q); auto. now apply (join_fields l m).
Qed.

(** ** A run of the original message *)

Definition page_end (tl : list Value) : Prop := tl = [] \/ exists r, tl = VNewPage :: r.

Definition InvL (d : Dms) (p : AP) : Prop :=
  exists c pg tl, ap_rest p = lift (pg ++ tl) /\ no_page_break pg /\ page_end tl
    /\ ap_rs p = setting d c [] /\ place_ok c [] /\ Forall value_ok (pg ++ tl) /\ rect_in d (pl_rect c)
    /\ RegM d (at_ls d (pl_earlier c ++ pl_upto c) []) (pg ++ tl)
    /\ pl_page c = pl_upto c ++ pg /\ SpOk d (ap_rs p).

Definition InvP (d : Dms) (p : AP) : Prop :=
  exists before vs, ap_rest p = lift vs /\ come d before (ap_rs p) /\ Forall value_ok before /\ Forall value_ok vs
    /\ RegM d (at_ls d before []) vs /\ SpOk d (ap_rs p).

Lemma cut_end pg tl vs : pg ++ tl = vs -> page_end tl -> Forall inner vs -> pg = vs /\ tl = [].
Proof.
  intros <- [->|(r & ->)] F; [now rewrite app_nil_r|]. apply Forall_app in F as [_ F]. inversion F; subst. contradiction.
Qed.

Lemma cut_page : forall pg tl vs r, pg ++ tl = vs ++ VNewPage :: r -> no_page_break pg -> page_end tl -> Forall inner vs ->
  pg = vs /\ tl = VNewPage :: r.
Proof.
  induction pg as [|v pg IH]; intros tl vs r E N P F.
  - cbn in E. destruct vs as [|w vs]; [auto|]. exfalso. destruct P as [->|(q & ->)]; [discriminate E|].
    injection E as <- _. inversion F; subst. contradiction.
  - destruct vs as [|w vs].
    + injection E as -> _. exfalso. apply N. now left.
    + injection E as -> E. inversion F; subst. destruct (IH _ _ _ E) as [-> ->]; auto. intros I. apply N. now right.
Qed.

Lemma cut_rect : forall pg tl vs q r, pg ++ tl = vs ++ VTextRectangle q :: r -> page_end tl -> Forall inner vs ->
  exists pg', pg = vs ++ VTextRectangle q :: pg' /\ r = pg' ++ tl.
Proof.
  induction pg as [|v pg IH]; intros tl vs q r E P F.
  - exfalso. cbn in E. destruct P as [->|(s & ->)]; [destruct vs; discriminate E|].
    destruct vs as [|w vs]; [discriminate E|]. injection E as <- _. inversion F; subst. contradiction.
  - destruct vs as [|w vs].
    + injection E as -> <-. exists pg. auto.
    + injection E as -> E. inversion F; subst. destruct (IH _ _ _ _ E) as (pg' & -> & ->); auto. exists pg'. auto.
Qed.

Lemma at_next_page d a : at_ls d (a ++ [VNewPage]) [] = at_ls d a [].
Proof.
  unfold at_ls. rewrite !app_nil_r. unfold jl_of, jp_of. rewrite !says_last. reflexivity.
Qed.

Lemma good_texts d c vs : Built d -> WholeGlyphs d -> place_ok c vs -> rect_in d (pl_rect c) ->
  Orderly d (pl_earlier c ++ pl_upto c) vs -> Forall span_fields (texts d c [] vs) ->
  (forall s, In s (texts d c [] vs) -> SpOk d (span_state s)) -> GoodSpans d (texts d c [] vs).
Proof.
  intros HB HW HP HR HO HF HS. destruct (orderly d c vs HO) as [N S]. constructor; auto.
  destruct (Proofs_Place.Built_parts d HB) as (_ & _ & (C1 & C2 & C3 & C4 & C5)).
  intros s I. specialize (HS s I). rewrite Forall_forall in HF. destruct (HF s I) as (F1 & _).
  assert (FO : forall f, FontOf (d_fonts d) s f -> In f (d_fonts d) /\ (used_font f \/ default_font (d_multi_cfg d) = 0)).
  { intros f [(E2 & a & b & E1 & _) _]. split; [rewrite E1; apply in_or_app; right; now left|].
    destruct (texts_font d c vs [] s HP I) as [U|U]; unfold used_font; [left; congruence|].
    destruct (Z.eq_dec (default_font (d_multi_cfg d)) 0); auto. left. congruence. }
  splits.
  - intros f ch HFo Ic U. destruct (FO f HFo) as [If Uf]. now apply (HW f If Uf).
  - intros CW f HFo. destruct (FO f HFo) as [If Uf]. destruct (HW f If Uf) as [_ K]. destruct (K CW) as [K1 K2].
    split; auto. unfold spacing_in. destruct (rs_char_spacing (span_state s)) as [n|] eqn:E; auto.
    specialize (HS n E). specialize (F1 n eq_refl). unfold char_width in HS. unfold u8 in F1. right. exists 0. lia.
  - rewrite (texts_rect d c vs [] s I). unfold rect_in, rect_fits in *. unfold u16 in *. lia.
Qed.

Lemma inv_rect d p po e : Built d -> WholeGlyphs d -> InvL d p ->
  a_rtr Debug d (rs_new d) po (ap_rest p) (ap_rs p) [] true = Val e -> a_res e = Ok tt ->
  GoodSpans d (a_spans e)
  /\ (a_state e = PsOn false -> InvL d (mkAP (a_rs e) (a_state e) (a_rest e)))
  /\ (a_state e <> PsOn false -> InvP d (mkAP (a_rs e) (a_state e) (a_rest e))).
Proof.
  intros HB HW (c & pg & tl & EX & NP & PE & ERS & HP & HV & HR & HM & EPG & SP) HE ER.
  destruct (rtr_spok _ _ _ _ _ _ _ _ _ SP (fun s (I : In s []) => match I with end) HE ER) as [SP1 SP2].
  destruct (a_rtr_ok _ _ _ _ _ _ _ _ _ HE) as [_ HOK]. specialize (HOK ER).
  assert (HC0 : counts_ok (setting d c [])) by (unfold counts_ok; cbn; unfold u8; lia).
  rewrite ERS in HE.
  assert (KEY : forall vs rest, pg ++ tl = vs ++ rest -> Forall inner vs -> stops (okv rest) ->
    place_ok c vs /\ GoodSpans d (a_spans e) /\ RegM d (at_ls d (pl_earlier c ++ pl_upto c) vs) rest
    /\ exists po lb, a_rtr Debug d (rs_new d) po (okv rest) (setting d c vs) (texts d c [] vs) lb = Val e).
  { intros vs rest Hx Hi Hs. rewrite Hx in *. rewrite EX in HE. change (lift (vs ++ rest)) with (okv (vs ++ rest)) in HE.
    rewrite okv_app in HE. apply Forall_app in HV as [V1 V2].
    assert (HPv : place_ok c vs) by (destruct HP as (? & ? & ? & ?); unfold place_ok; auto).
    pose proof (rtr_run d c _ (okv rest) e vs [] [] HE ER Hi HPv HC0) as [HE' HSF]. cbn [app] in HE'.
    assert (ESP : a_spans e = texts d c [] vs).
    { destruct rest as [|x tail]; cbn [okv map a_rtr] in HE'; [injection HE' as <-; reflexivity|].
      destruct Hs as (v & Ev & N). injection Ev as ->. cbn [bind] in HE'. destruct v; try (exfalso; apply N; exact I).
      - injection HE' as <-. reflexivity.
      - apply bind_val in HE' as (o & _ & HE'). destruct o; injection HE' as <-; reflexivity. }
    rewrite ESP in *.
    destruct (machine_orderly d rest vs (pl_earlier c ++ pl_upto c) [] Hi) as [O1 O2]; auto.
    { intros a v b E. destruct a; discriminate E. }
    splits; auto. { now apply good_texts. } eauto. }
  destruct HOK as [vs e Hx Hi HR1 HS1 HR2|vs e Hx Hi HS1 HR2|vs r q e Hx Hi HS1 HUT HR2].
  - assert (E : pg ++ tl = vs) by (apply okv_inj; rewrite <- Hx, EX; reflexivity).
    destruct (cut_end _ _ _ E PE Hi) as [-> ->].
    destruct (KEY vs []) as (HPv & HG & _ & po' & lb & KE); auto. { exact I. }
    splits; auto. { intros X. rewrite HS1 in X. exfalso. now apply (done_on po). }
    intros _. cbn [okv map a_rtr] in KE. injection KE as <-. cbn [a_rs a_rest a_state] in *.
    exists (pl_earlier c ++ pl_page c), []. cbn [ap_rest ap_rs]. destruct HPv as (P1 & P2 & P3 & P4). splits; auto.
    + exists c, vs. splits; auto. rewrite EPG. now rewrite app_assoc.
    + now apply Forall_app.
    + exact I.
  - assert (exists rest, a_rest e = lift rest /\ pg ++ tl = vs ++ VNewPage :: rest) as (rest & ERT & E).
    { rewrite EX in Hx. clear -Hx. revert Hx. generalize (pg ++ tl). induction vs as [|v vs IH]; intros l Hx.
      - destruct l as [|w l]; [discriminate Hx|]. injection Hx as -> Hx. exists l. auto.
      - destruct l as [|w l]; [discriminate Hx|]. injection Hx as -> Hx. destruct (IH _ Hx) as (rest & E1 & E2).
        exists rest. split; auto. cbn. now rewrite E2. }
    destruct (cut_page _ _ _ _ E NP PE Hi) as [-> ->].
    destruct (KEY vs (VNewPage :: rest)) as (HPv & HG & HM' & po' & lb & KE); auto. { exists VNewPage. split; auto. }
    splits; auto. { intros X. rewrite HS1 in X. exfalso. now apply (new_page_on po). }
    intros _. cbn [okv map a_rtr bind] in KE. injection KE as <-. cbn [a_rs a_rest a_state] in *.
    exists (pl_earlier c ++ pl_page c), rest. cbn [ap_rest ap_rs]. destruct HPv as (P1 & P2 & P3 & P4). splits; auto.
    + exists c, vs. splits; auto. rewrite EPG. now rewrite app_assoc.
    + now apply Forall_app.
    + apply Forall_app in HV as [_ HV]. now inversion HV.
    + cbn [RegM] in HM'. destruct HM' as [_ HM']. rewrite at_outer in HM' by auto.
      rewrite app_assoc, at_next_page in HM'. rewrite EPG. now rewrite app_assoc.
  - assert (exists rest, a_rest e = lift rest /\ pg ++ tl = vs ++ VTextRectangle r :: rest) as (rest & ERT & E).
    { rewrite EX in Hx. clear -Hx. revert Hx. generalize (pg ++ tl). induction vs as [|v vs IH]; intros l Hx.
      - destruct l as [|w l]; [discriminate Hx|]. injection Hx as -> Hx. exists l. auto.
      - destruct l as [|w l]; [discriminate Hx|]. injection Hx as -> Hx. destruct (IH _ Hx) as (rest & E1 & E2).
        exists rest. split; auto. cbn. now rewrite E2. }
    destruct (cut_rect _ _ _ _ _ E PE Hi) as (pg' & -> & ->).
    destruct (KEY vs (VTextRectangle r :: pg' ++ tl)) as (HPv & HG & HM' & po' & lb & KE); auto. { exists (VTextRectangle r). split; auto. }
    assert (HRr : rect_ok r). { rewrite E in HV. apply Forall_app in HV as [_ HV]. now inversion HV. }
    destruct (good_rect d r q HB HRr HUT) as [HGR ->].
    splits; auto. 2:{ intros X. congruence. }
    intros _. cbn [okv map a_rtr bind] in KE. rewrite HUT in KE. cbn [bind] in KE. injection KE as KE.
    set (q := rect_on _ _ r) in *.
    set (c' := mkPlace (pl_earlier c) (pl_page c) (pl_upto c ++ vs ++ [VTextRectangle r]) q).
    assert (E2 : a_rs e = setting d c' []) by (rewrite <- KE; cbn [a_rs]; apply next_setting).
    exists c', pg', tl. cbn [ap_rest ap_rs]. splits; auto.
    + intros X. apply NP. apply in_or_app. right. now right.
    + destruct HP as (P1 & P2 & P3 & P4). destruct HPv as (_ & _ & _ & P5).
      unfold place_ok. cbn [pl_earlier pl_page pl_upto c']. splits; auto. rewrite !Forall_app. splits; auto.
    + rewrite E in HV. apply Forall_app in HV as [_ HV]. now inversion HV.
    + cbn [pl_rect c']. now apply rect_in_good.
    + cbn [RegM] in HM'. destruct HM' as [_ HM']. rewrite at_outer in HM' by auto.
      cbn [pl_earlier pl_upto c']. rewrite <- app_assoc in HM'. exact HM'.
    + cbn [pl_page pl_upto c']. rewrite EPG, <- !app_assoc. reflexivity.
Qed.

(** ** Pages with texts joined *)

Definition VStep (p q : AP) : Prop :=
  ap_state q = ap_state p /\ (exists k, ap_rs q = set_span (ap_rs p) k)
  /\ exists vs ws, ap_rest p = lift vs /\ ap_rest q = lift ws /\ VJ vs ws.

Lemma loop_joined d : Built d -> WholeGlyphs d -> forall fuel n p q raster p' raster',
  InvL d p -> ap_state p = PsOn false -> VStep p q -> ap_rs q = ap_rs p ->
  a_page_loop Debug d fuel n p raster = Val (p', Ok raster') ->
  exists q', a_page_loop Debug d fuel n q raster = Val (q', Ok raster') /\ VStep p' q' /\ InvP d p'.
Proof.
  intros HB HW. induction fuel as [|fuel IH]; intros n p q raster p' raster' HI HST HS ERS H; [discriminate H|].
  destruct HS as (ES & _ & vs & ws & EX & EY & V).
  assert (SP0 : rs_span (ap_rs p) = 0).
  { destruct HI as (c & pg & tl & _ & _ & _ & -> & _). reflexivity. }
  cbn [a_page_loop] in *. rewrite ES, HST in *. unfold a_text_rect in *. rewrite ERS, EX, EY in *.
  apply bind_val in H as (g & HG & H). destruct g as [r1|]; [|discriminate H].
  rewrite (graphics_join _ _ _ _ V), HG. cbn [bind].
  apply bind_val in H as ([p1 r2] & HT & H). apply bind_val in HT as (e & HE & HT).
  destruct (a_res e) as [[]|] eqn:ER; [|injection HT as <- <-; discriminate H].
  apply bind_val in HT as (o & HTS & HT). injection HT as <- <-. destruct o as [r2|]; [|discriminate H]. cbv zeta in H.
  destruct (rtr_join d (0 <? rs_off_time (ap_rs p)) _ _ V (ap_rs p) 0 [] [] true e) as (e' & HE' & JE); auto.
  { apply JI_start. lia. }
  replace (set_span (ap_rs p) 0) with (ap_rs p) in HE' by (destruct (ap_rs p); cbn in *; now subst).
  rewrite HE'. cbn [bind]. destruct JE as (J1 & J2 & J3 & J4 & J5 & J6 & J7 & J8). rewrite J1.
  rewrite <- EX in HE. destruct (inv_rect d p _ e HB HW HI HE ER) as (GS & IL & IP).
  rewrite (good_join d (a_spans e) (a_spans e') r1 r2) by (auto; apply J8; apply GS).
  cbn [bind]. destruct (MAX_TEXT_RECTANGLES <? n + 1); [discriminate H|].
  set (p1 := mkAP (a_rs e) (a_state e) (a_rest e)) in *. set (q1 := mkAP (a_rs e') (a_state e') (a_rest e')).
  assert (VS : VStep p1 q1) by (unfold VStep, p1, q1; cbn; splits; auto).
  assert (EP : ap_state p1 = a_state e) by reflexivity.
  assert (EQ : ap_state q1 = a_state e) by exact J2.
  assert (EA : ap_rs p1 = a_rs e) by reflexivity.
  clearbody p1. revert EP EQ IL IP J4. generalize (a_state e). intros st EP EQ IL IP J4.
  assert (D : st = PsOn false \/ st <> PsOn false) by (destruct st as [[]|m|]; auto; right; discriminate).
  destruct D as [->|D].
  - apply (IH (n + 1) p1 q1 r2); auto. rewrite EA. now apply J4.
  - destruct fuel; [discriminate H|]. rewrite a_page_loop_stop in H |- * by congruence. injection H as <- <-.
    exists q1. splits; auto.
Qed.

Lemma on_page_joined d p q p' pg : Built d -> WholeGlyphs d -> InvP d p -> VStep p q ->
  a_on_page Debug d p = Val (p', Ok pg) ->
  exists q', a_on_page Debug d q = Val (q', Ok pg) /\ VStep p' q' /\ InvP d p'.
Proof.
  intros HB HW (before & vs0 & EX0 & HC & HV0 & HV & HM & SP) (ES & (k & EK) & vs & ws & EX & EY & V) H.
  assert (vs0 = vs) as -> by (apply okv_inj; change (lift vs0 = lift vs); congruence). clear EX0.
  unfold a_on_page in *. cbv zeta in *. rewrite EX, EY in *.
  apply bind_val in H as (u & EC & H). destruct u as [u|]; [|discriminate H].
  rewrite (check_join_vals _ _ _ V), EC. cbn [bind].
  apply bind_val in H as ([rs1 u1] & EU & H). destruct u1 as [u1|]; [|discriminate H].
  assert (EU' : update_page_state (rs_new d) (bare (lift ws)) (ap_rs q) = Val (rs1, Ok u1)).
  { rewrite EK. unfold update_page_state in *. cbv zeta in *. rewrite (update_join _ _ _ V). exact EU. }
  rewrite EU'. cbn [bind]. clear EU'.
  destruct (check_ok _ _ _ EC) as (pg0 & tail & Hx & Hn & _ & HT).
  unfold update_page_state in EU. rewrite Hx in EU. apply update_loop_ok in EU; auto. 2:{ eapply PageTail_weak; eauto. }
  destruct EU as [_ EU]. assert (rs1 = page_start d (ap_rs p) pg0) as -> by (rewrite EU; reflexivity). clear EU.
  assert (exists tl, vs = pg0 ++ tl /\ page_end tl) as (tl & -> & PE).
  { clear -Hx HT. revert vs Hx. induction pg0 as [|v pg0 IH]; intros vs Hx.
    - exists vs. split; auto. destruct HT as [->|(r & -> & _)]; destruct vs as [|w vs]; try discriminate Hx; [now left|].
      injection Hx as -> _. right. eauto.
    - destruct vs as [|w vs]; [discriminate Hx|]. injection Hx as -> Hx. destruct (IH _ Hx) as (tl & -> & PE). exists tl. auto. }
  apply bind_val in H as ([p1 r1] & EL & H). destruct r1 as [r1|]; [|discriminate H]. injection H as <- <-.
  assert (HI : InvL d (mkAP (page_start d (ap_rs p) pg0) (PsOn false) (lift (pg0 ++ tl)))).
  { pose proof HV as HV1. apply Forall_app in HV1 as [HV1 _].
    exists (mkPlace before pg0 [] (sign_rect d)), pg0, tl. cbn [ap_rest ap_rs pl_rect pl_earlier pl_upto pl_page]. splits; auto.
    - now apply page_start_setting.
    - unfold place_ok. cbn. splits; auto.
    - now apply rect_in_sign.
    - now rewrite app_nil_r. }
  set (q0 := mkAP (page_start d (ap_rs p) pg0) (PsOn false) (lift ws)).
  assert (VS0 : VStep (mkAP (page_start d (ap_rs p) pg0) (PsOn false) (lift (pg0 ++ tl))) q0).
  { unfold VStep, q0. cbn. splits; auto; [now exists 0|]. eauto. }
  destruct (loop_joined d HB HW _ _ _ q0 _ _ _ HI eq_refl VS0 eq_refl EL) as (q1 & EL' & VS & IP).
  rewrite EL'. cbn [bind]. destruct VS as (V1 & (k' & V2) & V3).
  exists q1. splits; auto; [now rewrite V2|]. unfold VStep. eauto.
Qed.

Lemma take_joined d n : Built d -> WholeGlyphs d -> forall p q ps, InvP d p -> VStep p q ->
  a_take Debug d n p = Val (map Ok ps) -> a_take Debug d n q = Val (map Ok ps).
Proof.
  intros HB HW. induction n as [|n IH]; intros p q ps HI HS H; [exact H|].
  cbn [a_take] in *. unfold a_next in *. pose proof HS as (ES & (k & EK) & ER). rewrite ES.
  destruct (ap_state p) as [m|m|] eqn:EST.
  - apply bind_val in H as ([o p'] & EN & H). apply bind_val in EN as ([p1 r] & EP & EN). injection EN as <- <-. cbn [fst snd] in *.
    apply bind_val in H as (l & ET & H). injection H as H. destruct ps as [|P ps]; [discriminate H|]. injection H as -> ->.
    destruct (on_page_joined d p q p1 P HB HW HI HS EP) as (q' & EQ & VS & IP). rewrite EQ. cbn [bind fst snd].
    rewrite (IH _ _ _ IP VS ET). reflexivity.
  - cbn [bind] in *. apply bind_val in H as (l & ET & H). injection H as H. destruct ps as [|P ps]; [discriminate H|]. injection H as <- ->.
    rewrite (IH _ (mkAP (ap_rs q) (next_state (PsOff m)) (ap_rest q)) ps) with (3 := ET).
    + cbn [bind map]. rewrite EK. reflexivity.
    + destruct HI as (before & vs & HI). exists before, vs. exact HI.
    + unfold VStep. cbn. splits; auto. exists k. exact EK.
  - exact H.
Qed.

(** ** The message read back *)

Inductive VJs : list Value -> list Value -> Prop :=
| VJs_refl vs : VJs vs vs
| VJs_step vs us ws : VJ vs us -> VJs us ws -> VJs vs ws.

Lemma VJ_refl vs : VJ vs vs.
Proof. induction vs; constructor; auto. Qed.
Lemma VJs_trans a b c : VJs a b -> VJs b c -> VJs a c.
Proof. induction 1; auto. intros K. eapply VJs_step; eauto. Qed.
Lemma VJs_cons v a b : VJs a b -> VJs (v :: a) (v :: b).
Proof. induction 1 as [vs|vs us ws H K IH]; [constructor|]. eapply VJs_step; [apply VJ_cons; exact H|exact IH]. Qed.

Lemma joins_ok vs ws : VJs vs ws -> Forall value_ok vs -> Forall value_ok ws.
Proof. induction 1; auto. intros F. apply IHVJs. eapply ok_join; eauto. Qed.

Lemma merge_joins vs : Forall value_ok vs -> VJs vs (merge vs).
Proof.
  induction vs as [|v vs IH]; intros F; [constructor|]. apply Forall_cons_iff in F as [FV F]. specialize (IH F).
  pose proof (VJs_cons v _ _ IH) as C.
  destruct v; try exact C. cbn [merge]. pose proof (joins_ok _ _ IH F) as FM.
  destruct (merge vs) as [|w l]; auto. destruct w; auto.
  match goal with |- context [if ?c then _ else _] => destruct c end; auto.
  apply Forall_cons_iff in FM as [[FM _] _]. destruct FV as [FV _].
  eapply VJs_trans; [exact C|]. eapply VJs_step; [|constructor]. apply VJ_join; auto. apply VJ_refl.
Qed.

Lemma take_joins d n ps vs ws : Built d -> WholeGlyphs d -> VJs vs ws -> Forall value_ok vs -> RegM d (ls0 d) vs ->
  a_take Debug d n (a_start d (lift vs)) = Val (map Ok ps) -> a_take Debug d n (a_start d (lift ws)) = Val (map Ok ps).
Proof.
  intros HB HW. induction 1 as [vs|vs us ws H K IH]; intros F R T; auto.
  apply IH; [eapply ok_join; eauto|eapply machine_join; eauto|].
  apply (take_joined d n HB HW (a_start d (lift vs))); auto.
  - exists [], vs. unfold a_start. cbn [ap_rest ap_rs]. splits; auto; [apply come_new|].
    intros m E. discriminate E.
  - unfold VStep, a_start. cbn. splits; auto; [now exists 0|]. eauto.
Qed.

Lemma normalize_joined d ms vs s ps : Built d -> WholeGlyphs d ->
  Meaning ms (map Ok vs) -> Forall small_hex vs ->
  JlRegular vs -> Regular d vs -> TailSilent vs ->
  normalize Debug ms = Val s -> Yields Debug d ms (map Ok ps) ->
  exists ps' ps'', ps = ps' ++ ps'' /\ (forall md, Yields md d s (map Ok ps'))
    /\ (BlankSpaces d -> Forall (fun P => OneColour (pg_raster P)) ps'').
Proof.
  intros HB HW M H J R TS N (n & HT & L). pose proof (Meaning_oks_ok _ _ M) as O.
  assert (M' : Meaning s (map Ok (merge (nvals vs)))).
  { pose proof (normalize_meaning Debug ms (map Ok vs) s M) as X. rewrite oks_map_Ok in X. exact (X H N). }
  pose proof (trimmed_nvals vs O J TS) as T.
  rewrite (take_start Debug d n ms (lift vs)) in HT by (rewrite lift_map; now apply Reads_meaning).
  assert (P : PStep d (a_start d (lift vs)) (a_start d (lift (nvals vs)))).
  { unfold PStep, a_start. cbn. splits; auto. exists settings0, vs, (nvals vs). splits; auto. apply Ag_new. }
  destruct (take_trim Debug d n _ _ ps (or_introl P) HT) as (ps' & ps'' & -> & E & EB).
  assert (ON : Forall value_ok (nvals vs)).
  { apply Forall_forall. intros v I. unfold nvals in I. rewrite Forall_forall in O. apply O.
    destruct (strip_split (dedup settings0 vs)) as (t & ET & _).
    apply dedup_incl with (s := settings0). rewrite ET. apply in_or_app. now left. }
  assert (RN : RegM d (ls0 d) (nvals vs)).
  { apply (machine_trim d _ _ _ _ _ T); auto. now apply regular_start. }
  apply (take_joins d n ps' _ _ HB HW (merge_joins _ ON) ON RN) in E.
  exists ps', ps''. splits; auto. intros md. apply Proofs_Unique.yields_modes. exists n. split.
  - rewrite (take_start Debug d n s (lift (merge (nvals vs)))); auto. rewrite lift_map. now apply Reads_meaning.
  - rewrite map_length in *. rewrite app_length in L. lia.
Qed.

(** ** Which messages are regular *)

Lemma machine_cut d r a : forall s, RegM d s (a ++ r) -> RegM d (fold_left (ls_next d) a s) r.
Proof. induction a as [|v a IH]; intros s H; auto. cbn [app RegM fold_left] in *. now apply IH. Qed.

Lemma fold_said d a : l_jl (fold_left (ls_next d) a (ls0 d)) = jl_of d a /\ l_jp (fold_left (ls_next d) a (ls0 d)) = jp_of d a.
Proof.
  induction a as [|v a IH] using rev_ind; [auto|]. destruct IH as [E1 E2]. rewrite fold_left_app. cbn [fold_left ls_next l_jl l_jp].
  rewrite E1, E2. unfold jl_of, jp_of. now rewrite !says_last.
Qed.

Lemma fold_start d a : starts_rect a -> fold_left (ls_next d) a (ls0 d) = at_ls d a [].
Proof.
  intros [->|[(b & ->)|(b & r & ->)]]; [reflexivity| |]; rewrite fold_left_app; cbn [fold_left];
    destruct (fold_said d b) as [E1 E2]; generalize dependent (fold_left (ls_next d) b (ls0 d)); intros s E1 E2;
    unfold ls_next, at_ls; rewrite E1, E2, app_nil_r;
    unfold jl_of, jp_of; rewrite !says_last; reflexivity.
Qed.

Lemma machine_regular d vs : RegM d (ls0 d) vs -> Regular d vs.
Proof.
  intros H a b c -> S N1 N2. apply machine_cut in H. rewrite fold_start in H by auto.
  apply (machine_orderly d c b a []); auto.
  - apply Forall_forall. intros v I. destruct v; try exact Logic.I; [apply (N1 I)|apply (N2 _ I)].
  - intros x v y E. destruct x; discriminate E.
Qed.
