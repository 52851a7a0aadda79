(** Letter case in the functions that do not render (C70); what patterns depend on (C71). *)

From Coq Require Import String Lia.
From Verif Require Import Base Str Multi Color Font Config Sign Render Pattern
  Spec_Multi Spec_Font Spec_Sign Spec_Gamut Spec_Alike
  Proofs_Str Proofs_Split Proofs_Parse Proofs_Tag Proofs_Print Proofs_Norm Proofs_Case Proofs_Iter Proofs_Machine Proofs_Pattern Proofs_Cut
  Proofs_Hex Proofs_Sign Proofs_Gamut Proofs_Alike.
Open Scope list_scope.

Lemma recased_reads ms ms' : Recased ms ms' -> exists xs ys, Reads (ms_new ms) xs /\ Reads (ms_new ms') ys
  /\ Forall2 OutSim xs ys.
Proof.
  intros (ts & ts' & HT & HT' & HF). exists (map try_from ts), (map try_from ts'). splits; auto using Reads_new.
  apply tokens_sim; auto. exact (Tokens_Token _ _ HT).
Qed.

Lemma values_reads md ms xs : Reads (ms_new ms) xs -> values md ms = xs.
Proof. intros H. unfold values. now apply Reads_map. Qed.

Lemma recased_length ms ms' : Recased ms ms' -> List.length ms = List.length ms'.
Proof.
  intros (ts & ts' & HT & HT' & HF).
  assert (E : forall ms ts, Tokens ms ts -> ms = List.concat ts).
  { induction 1 as [|t rest l HK H IH]; [reflexivity|]. cbn [List.concat]. congruence. }
  rewrite (E _ _ HT), (E _ _ HT'). clear HT HT'. induction HF as [|t t' l l' HC HF IH]; [reflexivity|].
  cbn [List.concat]. rewrite !app_length, IH. f_equal. destruct HC as [|b b' _ _ HE]; auto.
  cbn [List.length]. rewrite !app_length. f_equal. f_equal. induction HE; cbn; auto.
Qed.

(** ** Blanks and text *)

Lemma recased_blank md ms ms' : Recased ms ms' -> is_blank md ms = is_blank md ms'.
Proof.
  intros H. destruct (recased_reads ms ms' H) as (xs & ys & HR & HR' & HF). unfold is_blank.
  rewrite (values_reads md ms xs HR), (values_reads md ms' ys HR'). clear - HF.
  induction HF as [|x y xs ys HS HF IH]; [reflexivity|]. cbn [all_blank].
  destruct (OutSim_cases x y HS) as [->|[(e & e' & -> & -> & _)|(v & w & -> & -> & Hv & Hw & _)]]; cbn [bind]; auto.
  - destruct y as [[v|e]| |]; cbn [bind]; auto. now rewrite IH.
  - destruct v; try contradiction; destruct w; try contradiction; reflexivity.
Qed.

Lemma recased_spans md ms ms' : Recased ms ms' -> text_spans md ms = text_spans md ms'.
Proof.
  intros H. destruct (recased_reads ms ms' H) as (xs & ys & HR & HR' & HF). unfold text_spans.
  rewrite (values_reads md ms xs HR), (values_reads md ms' ys HR'). clear - HF.
  induction HF as [|x y xs ys HS HF IH]; [reflexivity|]. cbn [spans_of].
  destruct (OutSim_cases x y HS) as [->|[(e & e' & -> & -> & _)|(v & w & -> & -> & Hv & Hw & _)]]; cbn [bind]; auto.
  - now rewrite IH.
  - destruct v; try contradiction; destruct w; try contradiction; exact IH.
Qed.

Lemma recased_text md ms ms' : Recased ms ms' ->
  is_blank md ms = is_blank md ms' /\ text_spans md ms = text_spans md ms'
  /\ forall sep, join_text md ms sep = join_text md ms' sep.
Proof.
  intros H. splits; [now apply recased_blank|now apply recased_spans|].
  intros sep. unfold join_text. now rewrite (recased_spans md ms ms' H).
Qed.

(** ** Normal forms *)

Lemma CaseEq_inner b b' : CaseEq (91 :: b ++ [93]) (91 :: b' ++ [93]) -> CaseEq b b'.
Proof.
  intros H. inversion H as [|? ? ? ? _ H1]; subst. clear H. revert b' H1. induction b as [|c b IH]; intros b' H1.
  - destruct b' as [|c' b']; [constructor|]. exfalso. inversion H1 as [|? ? ? ? _ H2]; subst. destruct b'; inversion H2.
  - destruct b' as [|c' b']; cbn [app] in H1; inversion H1 as [|? ? ? ? HC H2]; subst.
    + exfalso. destruct b; inversion H2.
    + constructor; auto. now apply IH.
Qed.

Lemma token_head t rest : Token t rest -> (plain t /\ at_boundary rest) \/ exists c r, t = c :: r /\ bracket c.
Proof.
  destruct 1; [right; eexists; eexists; split; [reflexivity|]; (now left) || (now right)..|auto].
Qed.

Lemma case_head t t' c r : CaseToken t t' -> t = c :: r -> bracket c -> exists c' r', t' = c' :: r' /\ bracket c'.
Proof. intros [|b b' _ _ _] E Hc; [eauto|]. eexists. eexists. split; [reflexivity|now left]. Qed.

Lemma printed_recased vs ws : Forall Parsable vs -> Forall Parsable ws -> Forall2 CaseEqValue vs ws ->
  Recased (printed vs) (printed ws).
Proof.
  intros HP HP' HF. induction HF as [|v w vs ws HC HF IH]; [exists [], []; splits; constructor|].
  apply Forall_cons_iff in HP as [Hv HP]. apply Forall_cons_iff in HP' as [Hw HP'].
  destruct (IH HP HP') as (ts & ts' & HT & HT' & H2). clear IH. unfold printed in *. cbn [map concat].
  set (r := concat (map display vs)) in *. set (r' := concat (map display ws)) in *. clearbody r r'.
  assert (CaseEq (display v) (display w) /\ (v = w \/ (forall t, v <> VText t) /\ (forall t, w <> VText t))) as [HD HE].
  { destruct (CaseEqValue_cases v w HC) as [->|(Iv & Iw & _ & HD)]; [split; auto; apply CaseEq_refl|].
    split; auto. right. split; intros t ->; contradiction. }
  assert (CONS : forall t t', (forall q, Token t q) -> (forall q, Token t' q) -> CaseToken t t' -> Recased (t ++ r) (t' ++ r')).
  { intros t t' K K' KC. exists (t :: ts), (t' :: ts'). splits; constructor; auto. }
  destruct Hv as [| |t Hn Hp Ht|b v Hb HTD].
  - destruct HE as [<-|[HE _]]; [|now destruct (HE [91])]. apply (CONS [91; 91] [91; 91]); constructor.
  - destruct HE as [<-|[HE _]]; [|now destruct (HE [93])]. apply (CONS [93; 93] [93; 93]); constructor.
  - destruct HE as [<-|[HE _]]; [|now destruct (HE t)]. rewrite display_text by auto.
    destruct H2 as [|t1 t1' ts ts' HC1 H2].
    + inversion HT; subst. inversion HT'; subst. exists [t], [t]. rewrite app_nil_r.
      assert (Tokens t [t]) by (apply Tokens_one; auto; apply Tk_text; auto; now left). splits; auto. constructor; [apply Ct_same|constructor].
    + inversion HT as [|? q ? K1 HTq]; subst. inversion HT' as [|? q' ? K1' HTq']; subst.
      destruct (token_head t1 q K1) as [[Hp1 HB]|(c & u & -> & Hc)].
      * destruct HC1 as [t1|b1 b1' _ _ _]; [|inversion Hp1; lia].
        assert (at_boundary q') as HB'.
        { destruct (token_head t1 q' K1') as [[_ HB']|(c & u & -> & Hc)]; auto. inversion Hp1; subst. destruct Hc; subst; tauto. }
        exists ((t ++ t1) :: ts), ((t ++ t1) :: ts'). rewrite !app_assoc.
        assert (t ++ t1 <> []) by (destruct t; [congruence|discriminate]).
        splits; constructor; auto; try (apply Tk_text; auto; now apply plain_app). apply Ct_same.
      * destruct (case_head _ _ _ _ HC1 eq_refl Hc) as (c' & u' & -> & Hc').
        exists (t :: (c :: u) :: ts), (t :: (c' :: u') :: ts'). splits.
        -- constructor; auto. apply Tk_text; auto. right. eexists. eexists. split; [reflexivity|auto].
        -- constructor; auto. apply Tk_text; auto. right. eexists. eexists. split; [reflexivity|auto].
        -- constructor; [apply Ct_same|]. constructor; auto.
  - destruct (display_reread v b Hb HTD) as (b1 & P1 & E1 & _).
    assert (exists b2, plain b2 /\ display w = 91 :: b2 ++ [93]) as (b2 & P2 & E2).
    { destruct HE as [<-|[_ HE]]; [eauto|]. destruct Hw as [| |t ? ? ?|b' w Hb' HTD']; [now destruct (HE [91])|now destruct (HE [93])|now destruct (HE t)|].
      destruct (display_reread w b' Hb' HTD') as (b2 & P2 & E2 & _). eauto. }
    rewrite E1, E2 in HD |- *. apply CaseEq_inner in HD.
    apply CONS; [intros; now constructor..|now apply Ct_tag].
Qed.

Lemma same_redundant s v w : CaseEqValue v w -> redundantb s v = redundantb s w /\ apply_setting v s = apply_setting w s
  /\ value_is_blank v = value_is_blank w.
Proof.
  intros H. destruct (CaseEqValue_cases v w H) as [->|(Iv & Iw & _)]; auto.
  destruct v; try contradiction; destruct w; try contradiction; auto.
Qed.

Lemma dedup_recased vs ws : Forall2 CaseEqValue vs ws -> forall s, Forall2 CaseEqValue (dedup s vs) (dedup s ws).
Proof.
  induction 1 as [|v w vs ws H HF IH]; intros s; [constructor|]. cbn [dedup].
  destruct (same_redundant s v w H) as (-> & -> & _). destruct (redundantb s w); auto.
Qed.
Lemma strip_recased vs ws : Forall2 CaseEqValue vs ws -> Forall2 CaseEqValue (strip vs) (strip ws).
Proof.
  induction 1 as [|v w vs ws H HF IH]; [constructor|]. cbn [strip].
  destruct (same_redundant settings0 v w H) as (_ & _ & ->).
  destruct IH as [|a b l l' Hab HI]; [destruct (value_is_blank w); auto|]. constructor; auto.
Qed.

Lemma norm_panics xs : In Panic xs -> Forall (fun x => x <> Hang) xs -> forall st, norm_loop xs st = Panic.
Proof.
  induction xs as [|x xs IH]; [intros []|]. intros I H st. apply Forall_cons_iff in H as [Hx H]. cbn [norm_loop].
  destruct x as [[v|e]| |]; cbn [bind]; auto; try congruence; destruct I as [I|I]; try discriminate I; auto.
Qed.

Lemma recased_normalize md ms ms' : Recased ms ms' -> BothGive Recased (normalize md ms) (normalize md ms').
Proof.
  intros H. destruct (recased_reads ms ms' H) as (xs & ys & HR & HR' & HF).
  assert (HX : Forall (fun x => x <> Hang) xs).
  { eapply Forall_impl; [|exact (Reads_outcome _ _ HR)]. intros x [->|(r & -> & _)]; discriminate. }
  assert (HY : Forall (fun x => x <> Hang) ys).
  { eapply Forall_impl; [|exact (Reads_outcome _ _ HR')]. intros x [->|(r & -> & _)]; discriminate. }
  assert (In Panic xs /\ In Panic ys \/ exists rs rs', xs = map Val rs /\ ys = map Val rs' /\ Forall2 CaseEqValue (oks rs) (oks rs')) as [[I J]|(rs & rs' & -> & -> & HV)].
  { clear HR HR' H. induction HF as [|x y xs ys HS HF IH]; [right; exists [], []; splits; constructor|].
    apply Forall_cons_iff in HX as [_ HX]. apply Forall_cons_iff in HY as [_ HY].
    destruct x as [[v|e]| |], y as [[w|e']| |]; try contradiction; [..|left; split; now left];
      (destruct (IH HX HY) as [[I J]|(rs & rs' & -> & -> & HV)]; [left; split; now right|right]).
    - exists (Ok v :: rs), (Ok w :: rs'). splits; auto. cbn [oks]. constructor; auto.
    - exists (Err e :: rs), (Err e' :: rs'). splits; auto. }
  - unfold normalize. rewrite (values_reads md ms xs HR), (values_reads md ms' ys HR'), !norm_panics by auto. exact Logic.I.
  - assert (Meaning ms rs) as HM by (apply (values_meaning md); now apply values_reads).
    assert (Meaning ms' rs') as HM' by (apply (values_meaning md); now apply values_reads).
    rewrite (normalize_val md ms rs HM), (normalize_val md ms' rs' HM'). cbn [BothGive].
    apply printed_recased; [apply nvals_Forall; eapply oks_Parsable; eauto..|]. now apply strip_recased, dedup_recased.
Qed.

(** ** Patterns *)

Section Items.
Variable R : Value -> Value -> Prop.
Hypothesis RC : forall v w, R v w -> CaseEqValue v w.

Definition OutR (x y : M (result Value SyntaxError)) : Prop :=
  match x, y with
  | Val (Ok v), Val (Ok w) => R v w
  | Val (Err _), Val (Err _) => True
  | Panic, Panic => True
  | _, _ => False
  end.

Definition PvSim (a b : PatValue) : Prop :=
  match a, b with
  | PVal v, PVal w => R v w
  | PFill r n, PFill r' n' => r = r' /\ n = n'
  | _, _ => False
  end.
Definition PrSim (a b : result PatValue SyntaxError) : Prop :=
  match a, b with Ok v, Ok w => PvSim v w | Err _, Err _ => True | _, _ => False end.

Definition StSim (st st' : PatIter) : Prop :=
  p_end st = true /\ p_end st' = true
  \/ p_end st = false /\ p_end st' = false
     /\ match p_value st, p_value st' with Some v, Some w => R v w | None, None => True | _, _ => False end
     /\ p_font_num st = p_font_num st' /\ p_rect_font st = p_rect_font st'
     /\ exists xs ys, Reads (p_pattern st) xs /\ Reads (p_pattern st') ys /\ Forall2 OutR xs ys.

Definition NxSim (a b : option (result PatValue SyntaxError) * PatIter) : Prop :=
  match fst a, fst b with
  | Some x, Some y => PrSim x y /\ StSim (snd a) (snd b)
  | None, None => True
  | _, _ => False
  end.

Lemma pat_step_sim d st st' pat pat' v w : p_font_num st = p_font_num st' -> p_rect_font st = p_rect_font st' ->
  R v w -> (exists xs ys, Reads pat xs /\ Reads pat' ys /\ Forall2 OutR xs ys) ->
  NxSim (pat_step d st pat v false) (pat_step d st' pat' w false).
Proof.
  intros EF ER HC HX.
  assert (HS : forall pv pw n rf, match pv, pw with Some a, Some b => R a b | None, None => True | _, _ => False end ->
    StSim (mkPat pat pv n rf false) (mkPat pat' pw n rf false)) by (intros pv pw n rf HV; right; cbn; splits; auto).
  unfold pat_step. rewrite <- EF, <- ER.
  assert (value_tag v = value_tag w) as <- by (destruct (CaseEqValue_cases v w (RC v w HC)) as [->|(_ & _ & E & _)]; auto).
  destruct (match value_tag v with Some tag => _ | None => false end).
  - unfold NxSim. cbn. split; [exact I|apply HS; exact I].
  - destruct (CaseEqValue_cases v w (RC v w HC)) as [->|(Iv & Iw & _)].
    + destruct w; try (unfold NxSim; cbn; split; [exact HC|apply HS; exact I]).
      * destruct f as [[n k]|]; unfold NxSim; cbn; (split; [exact HC|apply HS; exact I]).
      * destruct (p_rect_font st) as [[r f]|]; unfold NxSim; cbn; (split; [auto|apply HS; cbn; auto]).
      * destruct (p_rect_font st) as [[q f]|]; [destruct (negb (rect_eqb q (full_rect d)))|]; unfold NxSim; cbn;
          (split; [auto|apply HS; cbn; auto]).
    + destruct v; try contradiction; destruct w; try contradiction; unfold NxSim; cbn [fst snd PrSim PvSim];
        (split; [exact HC|apply HS; exact I]).
Qed.

Lemma pat_next_sim md d st st' : StSim st st' -> MRel NxSim (pat_next md d st) (pat_next md d st').
Proof.
  intros [[E E']|(E & E' & HV & EF & ER & xs & ys & HR & HR' & HF)]; unfold pat_next; rewrite E, E'; [exact I|].
  destruct (p_value st) as [v|], (p_value st') as [w|]; try contradiction.
  - cbn [MRel]. unfold NxSim. cbn [fst snd PrSim PvSim]. split; auto. right. cbn. splits; eauto.
  - destruct HF as [|x y xs ys HS HF].
    + destruct (ms_next_end md _ HR) as (m & ->). destruct (ms_next_end md _ HR') as (m' & ->). cbn [bind].
      unfold pat_step. cbn [value_tag]. rewrite <- EF, <- ER. destruct (negb _); [cbn; split; [exact I|left; auto]|].
      destruct (p_rect_font st) as [[r f]|]; cbn; auto. unfold NxSim. cbn. split; auto. left. auto.
    + destruct x as [r| |], y as [r'| |]; try contradiction; try (destruct r; contradiction).
      * destruct (ms_next_reads md _ r xs HR) as (m & -> & HM). destruct (ms_next_reads md _ r' ys HR') as (m' & -> & HM'). cbn [bind].
        destruct r as [v|e], r' as [w|e']; try contradiction; cbn [MRel].
        -- apply pat_step_sim; eauto.
        -- unfold NxSim. cbn. split; auto. right. cbn. splits; eauto.
      * rewrite (ms_next_panics md _ xs HR), (ms_next_panics md _ ys HR'). exact I.
Qed.

Lemma pat_items_sim md d fuel : forall st st', StSim st st' ->
  Forall2 (MRel PrSim) (pat_items_fuel md d fuel st) (pat_items_fuel md d fuel st').
Proof.
  induction fuel as [|fuel IH]; intros st st' H; cbn [pat_items_fuel]; [constructor; [exact I|constructor]|].
  pose proof (pat_next_sim md d st st' H) as HN.
  destruct (pat_next md d st) as [[[r|] q]| |], (pat_next md d st') as [[[r'|] q']| |]; try contradiction.
  - destruct HN as [HP HQ]. constructor; auto.
  - constructor.
  - constructor; [exact I|constructor].
  - constructor; [exact I|constructor].
Qed.

End Items.

Lemma items_sim (R : Value -> Value -> Prop) md d ms ms' : (forall v w, R v w -> CaseEqValue v w) -> List.length ms = List.length ms' ->
  (exists xs ys, Reads (ms_new ms) xs /\ Reads (ms_new ms') ys /\ Forall2 (OutR R) xs ys) ->
  Forall2 (MRel (PrSim R)) (pat_items md d ms) (pat_items md d ms').
Proof.
  intros RC HL H. unfold pat_items. rewrite <- HL. apply pat_items_sim; auto. right. cbn. splits; auto.
Qed.

Lemma recased_items md d ms ms' : Recased ms ms' -> Forall2 (MRel (PrSim CaseEqValue)) (pat_items md d ms) (pat_items md d ms').
Proof.
  intros H. apply items_sim; auto using recased_length. apply recased_reads in H as (xs & ys & HR & HR' & HF).
  exists xs, ys. splits; auto. clear HR HR'. induction HF as [|x y xs ys K HF IH]; constructor; auto.
  destruct x as [[v|e]| |], y as [[w|e']| |]; cbn in *; auto.
Qed.

Lemma recased_widths md d ms ms' : Recased ms ms' -> pat_widths md d ms = pat_widths md d ms'.
Proof.
  intros H. apply (recased_items md d) in H. unfold pat_widths. generalize 0, (@nil (Z * Z * Z)).
  induction H as [|x y xs ys HS HF IH]; intros n l; [reflexivity|]. cbn [widths_loop].
  destruct x as [[[v|r f]|e]| |], y as [[[w|r' f']|e']| |]; try contradiction; cbn [bind]; auto.
  destruct HS as [<- <-]. destruct (chk8 md (n + 1)); cbn [bind]; auto. destruct (rect_lines d r f); cbn [bind]; auto.
Qed.

Lemma fill_lines_case n : forall first lines s s', CaseEq s s' ->
  CaseEq (fst (fill_lines n first lines s)) (fst (fill_lines n first lines s'))
  /\ snd (fill_lines n first lines s) = snd (fill_lines n first lines s').
Proof.
  induction n as [|n IH]; intros first lines s s' H; cbn [fill_lines]; [auto|].
  destruct lines as [|l lines]; [auto|]. apply IH. apply CaseEq_app; [|apply CaseEq_refl].
  destruct first; auto. apply CaseEq_app; auto. apply CaseEq_refl.
Qed.

Lemma recased_fill md d ms ms' lines : Recased ms ms' -> BothGive CaseEq (pat_fill md d ms lines) (pat_fill md d ms' lines).
Proof.
  intros H. apply (recased_items md d) in H. unfold pat_fill.
  assert (K : forall fv s s', CaseEq s s' -> BothGive CaseEq (fill_loop d (pat_items md d ms) fv lines s) (fill_loop d (pat_items md d ms') fv lines s'));
    [|apply K; constructor]. revert lines.
  induction H as [|x y xs ys HS HF IH]; intros lines fv s s' HA; [exact HA|]. cbn [fill_loop].
  destruct x as [[[v|r f]|e]| |], y as [[[w|r' f']|e']| |]; try contradiction; cbn [bind]; auto.
  - cbn [MRel PrSim PvSim] in HS. destruct (CaseEqValue_cases v w HS) as [->|(Iv & Iw & _ & HD)].
    + destruct w; try (apply IH; auto; apply CaseEq_app; auto; apply CaseEq_refl).
    + destruct v; try contradiction; destruct w; try contradiction; (apply IH; auto; apply CaseEq_app; auto).
  - destruct HS as [<- <-]. destruct (rect_lines d r f) as [n| |]; cbn [bind BothGive]; auto.
    destruct (fill_lines_case (Z.to_nat n) true lines s s' HA) as [H1 H2].
    destruct (fill_lines (Z.to_nat n) true lines s) as [s1 l1], (fill_lines (Z.to_nat n) true lines s') as [s2 l2].
    cbn [fst snd] in H1, H2. subst l2. destruct fv as [fv|]; apply IH; auto. apply CaseEq_app; auto. apply CaseEq_refl.
  - constructor.
Qed.

Lemma plain_outs p p' : Recased p p' -> (forall v, Says p v -> ~ carries_text v) ->
  exists xs ys, Reads (ms_new p) xs /\ Reads (ms_new p') ys /\ Forall2 (OutR eq) xs ys.
Proof.
  intros (ts & ts' & HT & HT' & HF) HN. exists (map try_from ts), (map try_from ts'). splits; auto using Reads_new.
  pose proof (tokens_sim ts ts' HF (Tokens_Token _ _ HT)) as HS.
  assert (HQ : forall t v, In t ts -> try_from t = Val (Ok v) -> ~ carries_text v).
  { intros t v I E. apply HN. exists ts, t. splits; auto. pose proof (Tokens_Token _ _ HT) as HK. rewrite Forall_forall in HK.
    destruct (HK t I) as (rest & K). eapply try_Token; eauto. }
  clear - HS HQ. revert ts' HS. induction ts as [|t ts IH]; intros [|t' ts'] HS; cbn [map] in *; inversion HS as [|? ? ? ? HO HS']; subst; constructor.
  - destruct (try_from t) as [[v|e]| |] eqn:E; destruct (try_from t') as [[w|e']| |]; cbn in *; auto.
    destruct (CaseEqValue_cases v w HO) as [|(Iv & _)]; auto. exfalso. apply (HQ t v); auto.
  - apply IH; auto. intros u v I. apply HQ. now right.
Qed.

Lemma plain_items md d p p' : Recased p p' -> (forall v, Says p v -> ~ carries_text v) ->
  Forall2 (MRel (PrSim eq)) (pat_items md d p) (pat_items md d p').
Proof.
  intros H HN. apply items_sim; auto using recased_length, plain_outs. intros v w <-. apply CaseEqValue_refl, CaseEq_refl.
Qed.

Lemma plain_normalize md ms ms' : Recased ms ms' -> (forall v, Says ms v -> ~ carries_text v) ->
  normalize md ms = normalize md ms'.
Proof.
  intros H HN. destruct (plain_outs ms ms' H HN) as (xs & ys & HR & HR' & HF). unfold normalize.
  rewrite (values_reads md ms xs HR), (values_reads md ms' ys HR').
  assert (K : forall st, norm_loop xs st = norm_loop ys st); [|now rewrite K]. clear - HF.
  induction HF as [|x y xs ys HS HF IH]; intros st; [reflexivity|]. cbn [norm_loop].
  destruct x as [[v|e]| |], y as [[w|e']| |]; try contradiction; cbn [bind]; auto. cbn in HS. subst w. apply IH.
Qed.

Lemma plain_fill md d p p' lines : Recased p p' -> (forall v, Says p v -> ~ carries_text v) ->
  pat_fill md d p lines = pat_fill md d p' lines.
Proof.
  intros H HN. pose proof (plain_items md d p p' H HN) as HI. unfold pat_fill. generalize (@None (option (Z * option Z))), (@nil Z).
  revert lines. clear - HI. induction HI as [|x y xs ys HS HF IH]; intros lines fv s; [reflexivity|]. cbn [fill_loop].
  destruct x as [[[v|r f]|e]| |], y as [[[w|r' f']|e']| |]; try contradiction; cbn [bind]; auto.
  - cbn in HS. subst w. destruct v; apply IH.
  - destruct HS as [<- <-]. apply bind_cong. intros n _. destruct (fill_lines _ _ _ _). apply IH.
Qed.

Lemma recased_lines md d p p' ms : Recased p p' -> (forall v, Says p v -> ~ carries_text v) ->
  pat_lines md d p ms = pat_lines md d p' ms.
Proof.
  intros H HN. pose proof (plain_items md d p p' H HN) as HI.
  unfold pat_lines. generalize (@nil str). revert ms. clear - HI.
  induction HI as [|x y xs ys HS HF IH]; intros ms l; [reflexivity|]. cbn [lines_loop].
  destruct x as [[[v|r f]|e]| |], y as [[[w|r' f']|e']| |]; try contradiction; cbn [bind]; auto.
  - cbn in HS. subst w. destruct v; auto; apply bind_cong; intros [nx vals] _;
      (destruct (match nx with Some (Ok _) => _ | _ => _ end); [apply bind_cong; intros [? ?] _; auto|reflexivity]).
  - destruct HS as [<- <-]. apply bind_cong. intros n _. apply bind_cong. intros [b a] _. apply bind_cong. intros [[[? ?] ?] ?] _. auto.
Qed.

(** ** What patterns depend on (C71) *)

Section Cells.
Variables d d' : Dms.
Hypothesis HS : SameCells d d'.

Lemma cells_full : full_rect d = full_rect d'.
Proof.
  destruct HS as (E1 & E2 & E3 & E4 & E5). unfold full_rect, pixel_width, pixel_height. congruence.
Qed.

Lemma cells_items md fuel : forall st, pat_items_fuel md d fuel st = pat_items_fuel md d' fuel st.
Proof.
  assert (forall st pat v e, pat_step d st pat v e = pat_step d' st pat v e) as ES.
  { intros st pat v e. unfold pat_step. rewrite cells_full. destruct HS as (_ & _ & _ & -> & ->). reflexivity. }
  assert (forall st, pat_next md d st = pat_next md d' st) as EN.
  { intros st. unfold pat_next. destruct (p_end st); auto. destruct (p_value st); auto. apply bind_cong.
    intros [[[v|e]|] pat] _; now rewrite ?ES. }
  induction fuel as [|fuel IH]; intros st; cbn [pat_items_fuel]; [reflexivity|]. rewrite EN.
  destruct (pat_next md d' st) as [[[r|] q]| |]; auto. now rewrite IH.
Qed.

Lemma cells_lines n r : SameLines d d' n -> rect_lines d r n = rect_lines d' r n.
Proof.
  intros H. unfold rect_lines. assert (char_height d = char_height d') as -> by (unfold char_height; apply HS).
  destruct H as [(f & f' & H & H' & EH & EL)|[H H']].
  - apply FirstFont_lookup in H, H'. now rewrite H, H', EH, EL.
  - destruct (font_lookup (d_fonts d) n) as [f|] eqn:E; [exfalso; apply (H f), FirstFont_lookup, E|].
    destruct (font_lookup (d_fonts d') n) as [f|] eqn:E'; [exfalso; apply (H' f), FirstFont_lookup, E'|]. reflexivity.
Qed.
End Cells.

Lemma fills_used md d ms fuel : forall st,
  (p_end st = false -> exists xs, Reads (p_pattern st) xs /\ told ms xs) ->
  UsesFont d ms (p_font_num st) -> (forall r n, p_rect_font st = Some (r, n) -> UsesFont d ms n) ->
  forall r n, In (Val (Ok (PFill r n))) (pat_items_fuel md d fuel st) -> UsesFont d ms n.
Proof.
  induction fuel as [|fuel IH]; intros st HR HF HRF r n I; cbn [pat_items_fuel] in I; [destruct I as [I|[]]; discriminate I|].
  assert (STEP : forall pat v e, (e = false -> exists xs, Reads pat xs /\ told ms xs) -> (forall m k, v = VFont (Some (m, k)) -> UsesFont d ms m) ->
    match pat_step d st pat v e with
    | (Some x, q) => (forall r n, x = Ok (PFill r n) -> UsesFont d ms n)
        /\ (p_end q = false -> exists xs, Reads (p_pattern q) xs /\ told ms xs)
        /\ UsesFont d ms (p_font_num q) /\ (forall r n, p_rect_font q = Some (r, n) -> UsesFont d ms n)
    | (None, _) => True
    end).
  { clear I. intros pat v e HP HV. unfold pat_step.
    assert (U0 : UsesFont d ms (default_font (d_multi_cfg d))) by constructor.
    destruct (match value_tag v with Some tag => _ | None => false end); [cbn; splits; auto; discriminate|].
    destruct v; try (destruct e; [exact I|]; cbn; splits; auto; discriminate).
    - destruct f as [[m k]|]; (destruct e; [exact I|]; cbn; splits; eauto; discriminate).
    - destruct (p_rect_font st) as [[q f]|]; cbn; [|destruct e; [exact I|]]; cbn; splits; auto;
        try discriminate; try (intros ? ? [= <- <-]; eauto).
    - destruct (p_rect_font st) as [[q f]|]; [destruct (negb _)|]; try (destruct e; [exact I|]); cbn; splits; auto;
        try discriminate; try (intros ? ? [= <- <-]; eauto). }
  unfold pat_next in I. destruct (p_end st) eqn:EE; [destruct I|]. destruct (HR eq_refl) as (xs & HX & HT).
  destruct (p_value st) as [v|].
  - destruct I as [I|I]; [discriminate I|]. eapply IH; [..|exact I]; cbn; eauto.
  - destruct xs as [|[[v|e]| |] xs].
    + destruct (ms_next_end md _ HX) as (m & E). rewrite E in I. cbn [bind] in I.
      specialize (STEP m VNewPage true ltac:(discriminate) ltac:(discriminate)).
      destruct (pat_step d st m VNewPage true) as [[x|] q]; [|destruct I].
      destruct STEP as (S1 & S2 & S3 & S4). destruct I as [I|I]; [injection I as ->; eauto|eapply IH; [..|exact I]; auto].
    + destruct (ms_next_reads md _ _ xs HX) as (m & E & HM). rewrite E in I. cbn [bind] in I.
      specialize (STEP m v false). destruct (pat_step d st m v false) as [[x|] q]; [|destruct I].
      destruct STEP as (S1 & S2 & S3 & S4).
      * intros _. exists xs. split; auto. eapply told_cons; eauto.
      * intros k v0 ->. apply (Uf_tag d ms k v0), HT. now left.
      * destruct I as [I|I]; [injection I as ->; eauto|eapply IH; [..|exact I]; auto].
    + destruct (ms_next_reads md _ _ xs HX) as (m & E & HM). rewrite E in I. cbn [bind] in I.
      destruct I as [I|I]; [discriminate I|]. eapply IH; [..|exact I]; cbn; auto. intros _. exists xs. split; auto. eapply told_cons; eauto.
    + rewrite (ms_next_panics md _ xs HX) in I. destruct I as [I|[]]; discriminate I.
    + exfalso. pose proof (Reads_outcome _ _ HX) as HO. apply Forall_cons_iff in HO as [[HO|(? & HO & _)] _]; discriminate HO.
Qed.

Lemma pattern_used md d ms r n : In (Val (Ok (PFill r n))) (pat_items md d ms) -> UsesFont d ms n.
Proof.
  unfold pat_items. apply fills_used; cbn.
  - intros _. destruct (Tokens_exists ms) as (ts & HT). exists (map try_from ts). split; auto using Reads_new.
    intros v I. apply in_map_iff in I as (t & E & I). exists ts, t. splits; auto.
    pose proof (Tokens_Token _ _ HT) as HK. rewrite Forall_forall in HK. destruct (HK t I) as (rest & K). eapply try_Token; eauto.
  - constructor.
  - intros ? ? [= <- <-]. constructor.
Qed.

Lemma same_patterns md d d' p : SameCells d d' -> (forall k, UsesFont d p k -> SameLines d d' k) ->
  pat_widths md d p = pat_widths md d' p /\ (forall lines, pat_fill md d p lines = pat_fill md d' p lines)
  /\ forall ms, pat_lines md d p ms = pat_lines md d' p ms.
Proof.
  intros HS HF. assert (E : pat_items md d p = pat_items md d' p).
  { unfold pat_items, pat_new. rewrite (cells_items d d' HS), (cells_full d d' HS). destruct HS as (_ & _ & _ & -> & _). reflexivity. }
  assert (HL : forall r n, In (Val (Ok (PFill r n))) (pat_items md d p) -> rect_lines d r n = rect_lines d' r n).
  { intros r n I. apply cells_lines; auto. apply HF. eapply pattern_used; eauto. }
  unfold pat_widths, pat_fill, pat_lines. rewrite <- E. clear - HL. splits.
  - generalize 0, (@nil (Z * Z * Z)). induction (pat_items md d p) as [|x xs IH]; intros n l; [reflexivity|]. cbn [widths_loop].
    apply bind_cong. intros [[v|r f]|e] ->; try (apply IH; intros; apply HL; now right).
    apply bind_cong. intros m _. rewrite (HL r f) by (now left). apply bind_cong. intros k _. apply IH. intros; apply HL; now right.
  - intros lines. generalize (@None (option (Z * option Z))), (@nil Z). revert lines.
    induction (pat_items md d p) as [|x xs IH]; intros lines fv s; [reflexivity|]. cbn [fill_loop].
    apply bind_cong. intros [[v|r f]|e] ->; auto.
    + destruct v; apply IH; intros; apply HL; now right.
    + rewrite (HL r f) by (now left). apply bind_cong. intros k _. destruct (fill_lines _ _ _ _). apply IH. intros; apply HL; now right.
  - intros ms. generalize (@nil str). revert ms. induction (pat_items md d p) as [|x xs IH]; intros ms l; [reflexivity|]. cbn [lines_loop].
    assert (IH' : forall ms l, lines_loop md d xs ms l = lines_loop md d' xs ms l) by (intros; apply IH; intros; apply HL; now right).
    apply bind_cong. intros [[v|r f]|e] ->; auto.
    + destruct v; auto; apply bind_cong; intros [nx vals] _;
        (destruct (match nx with Some (Ok _) => _ | _ => _ end); [apply bind_cong; intros [? ?] _; auto|reflexivity]).
    + rewrite (HL r f) by (now left). apply bind_cong. intros k _. apply bind_cong. intros [b a] _. apply bind_cong. intros [[[? ?] ?] ?] _. auto.
Qed.
