(** Letter case of tags does not matter. *)

From Coq Require Import String.
From Verif Require Import Base Str Multi Spec_Multi Proofs_Str Proofs_Split Proofs_Parse Proofs_Tag.

Lemma CaseCh_sym x y : CaseCh x y -> CaseCh y x.
Proof. unfold CaseCh. lia. Qed.
Lemma CaseEq_sym a b : CaseEq a b -> CaseEq b a.
Proof. unfold CaseEq. induction 1; constructor; auto using CaseCh_sym. Qed.

Lemma DigitVal_case radix c c' d : CaseCh c c' -> DigitVal radix c d -> DigitVal radix c' d.
Proof. unfold CaseCh, DigitVal. lia. Qed.

Lemma Digits_case radix s s' n : CaseEq s s' -> Digits radix s n -> Digits radix s' n.
Proof.
  intros H D. revert s' H. induction D as [c d Hd|s n c d Hs IH Hd]; intros s' H.
  - inv H. match goal with HF : Forall2 _ [] _ |- _ => inv HF end.
    constructor. eapply DigitVal_case; eauto.
  - apply Forall2_app_inv_l in H as (x & y & Hx & Hy & ->).
    inv Hy. match goal with HF : Forall2 _ [] _ |- _ => inv HF end.
    constructor; auto. eapply DigitVal_case; eauto.
Qed.

Lemma CaseCh_fixed c c' : CaseCh c c' -> ~ (65 <= c <= 90 \/ 97 <= c <= 122) -> c' = c.
Proof. unfold CaseCh. lia. Qed.

Lemma Num_case radix bound s s' n : CaseEq s s' -> Num radix bound s n -> Num radix bound s' n.
Proof.
  intros H [[D|(x & -> & D)] Hb]; split; auto.
  - left. eapply Digits_case; eauto.
  - inv H. right. match goal with HC : CaseCh 43 ?y |- _ => apply CaseCh_fixed in HC; [subst y|lia] end.
    eexists. split; [reflexivity|]. eapply Digits_case; eauto.
Qed.

Lemma Hex4_case s s' n : CaseEq s s' -> Hex4 s n -> Hex4 s' n.
Proof.
  intros H [H1 H2]. split; [eapply Num_case; eauto|].
  rewrite <- H2. symmetry. clear - H. induction H; cbn; congruence.
Qed.

Ltac case_split :=
  repeat match goal with
    | H : CaseEq (_ ++ _) _ |- _ =>
        apply Forall2_app_inv_l in H as (? & ? & ? & H & ->)
    | H : Forall2 CaseCh (_ ++ _) _ |- _ =>
        apply Forall2_app_inv_l in H as (? & ? & ? & H & ->)
    | H : CaseEq (_ :: _) _ |- _ => inv H
    | H : Forall2 CaseCh (_ :: _) _ |- _ => inv H
    | H : CaseEq [] _ |- _ => inv H
    | H : Forall2 CaseCh [] _ |- _ => inv H
    | H : CaseCh 44 ?y |- _ => apply CaseCh_fixed in H; [subst y|lia]
    end.

Lemma ColorText_case s s' c : CaseEq s s' -> ColorText s c -> ColorText s' c.
Proof.
  intros H D. inv D; case_split.
  - constructor. eapply Num_case; eauto.
  - constructor; eapply Num_case; eauto.
Qed.

Lemma RectText_case s s' r : CaseEq s s' -> RectText s r -> RectText s' r.
Proof. intros H D. inv D; case_split. constructor; auto; eapply Num_case; eauto. Qed.

Lemma OptText_case (P : str -> Z -> Prop) s s' o :
  (forall s s' n, CaseEq s s' -> P s n -> P s' n) ->
  CaseEq s s' -> OptText P s o -> OptText P s' o.
Proof. intros HP H D. inv D; [inv H|]; econstructor; eauto. Qed.

Lemma SepOpt_case (sep : Z -> Prop) (P : str -> Z -> Prop) s s' a b :
  (forall s s' n, CaseEq s s' -> P s n -> P s' n) ->
  (forall c c', CaseCh c c' -> sep c -> sep c') ->
  CaseEq s s' -> SepOpt sep P s a b -> SepOpt sep P s' a b.
Proof.
  intros HP HS H D. inv D; case_split; constructor; eauto; eapply OptText_case; eauto.
Qed.

Lemma le99_case s s' n : CaseEq s s' -> le99 s n -> le99 s' n.
Proof. intros H [H1 H2]. split; auto. eapply Num_case; eauto. Qed.
Lemma sep_o_case c c' : CaseCh c c' -> sep_o c -> sep_o c'.
Proof. unfold CaseCh, sep_o. lia. Qed.
Lemma sep_t_case c c' : CaseCh c c' -> sep_t c -> sep_t c'.
Proof. unfold CaseCh, sep_t. lia. Qed.

Lemma CodeCh_case l c c' : 97 <= l <= 122 \/ l = 47 -> CaseCh c c' -> CodeCh l c -> CodeCh l c'.
Proof.
  intros Hl H D. assert (c = l \/ (97 <= l <= 122 /\ c = l - 32)) as E by (inv D; auto).
  assert (c' = l \/ (97 <= l <= 122 /\ c' = l - 32)) as [->|[E' ->]] by (unfold CaseCh in H; lia).
  - constructor. - now constructor.
Qed.

Lemma DirCh_case c c' d : CaseCh c c' -> DirCh c d -> DirCh c' d.
Proof. intros H D. inv D; constructor; eapply CodeCh_case; eauto; lia. Qed.

Lemma jl_of_range c j : jl_of c = Some j -> 49 <= c <= 57.
Proof.
  intros H. assert (~ (c < 49 \/ 53 < c)); [|lia]. intros Hc.
  enough (jl_of c = None) by congruence. unfold jl_of.
  destruct c as [|p|p]; auto. repeat (destruct p as [p|p|]; try reflexivity; try lia).
Qed.
Lemma jp_of_range c j : jp_of c = Some j -> 49 <= c <= 57.
Proof.
  intros H. assert (~ (c < 49 \/ 53 < c)); [|lia]. intros Hc.
  enough (jp_of c = None) by congruence. unfold jp_of.
  destruct c as [|p|p]; auto. repeat (destruct p as [p|p|]; try reflexivity; try lia).
Qed.

Lemma MovingArgs_case s s' d w sp r t : CaseEq s s' -> MovingArgs s d w sp r t ->
  exists t', MovingArgs s' d w sp r t' /\ CaseEq t t'.
Proof.
  intros H D. inv D; case_split. eexists. split; [|eassumption].
  constructor; try (eapply Num_case; eassumption). eapply DirCh_case; eassumption.
Qed.

Lemma CaseEqValue_refl v : (forall t, CaseEq t t) -> CaseEqValue v v.
Proof. intros H. destruct v; cbn; auto; [destruct s|destruct s|]; splits; auto. Qed.

Lemma CaseEq_refl s : CaseEq s s.
Proof. unfold CaseEq. induction s; constructor; auto. now left. Qed.

Ltac done_case :=
  eexists; split; [econstructor; eauto|first [reflexivity | cbn; auto]].

Lemma ArgDenotes_case l r r' v : CaseEq r r' -> ArgDenotes l r v ->
  exists v', ArgDenotes l r' v' /\ CaseEqValue v v'.
Proof.
  intros H D.
  assert (CR : CaseEqValue v v) by (apply CaseEqValue_refl, CaseEq_refl).
  assert (HN : forall radix bound s s' n, CaseEq s s' -> Num radix bound s n -> Num radix bound s' n)
    by (intros; eapply Num_case; eauto).
  assert (HN8 : forall s s' n, CaseEq s s' -> Num8 s n -> Num8 s' n) by (intros; eapply HN; eauto).
  assert (HN16 : forall s s' n, CaseEq s s' -> Num16 s n -> Num16 s' n) by (intros; eapply HN; eauto).
  assert (HN32 : forall s s' n, CaseEq s s' -> Num32 s n -> Num32 s' n) by (intros; eapply HN; eauto).
  assert (HX16 : forall s s' n, CaseEq s s' -> Hex16 s n -> Hex16 s' n) by (intros; eapply HN; eauto).
  pose proof Hex4_case. pose proof ColorText_case. pose proof RectText_case.
  assert (HCC : forall l c c', CaseCh c c' -> CodeCh l c -> 97 <= l <= 122 \/ l = 47 -> CodeCh l c')
    by (intros; eapply CodeCh_case; eauto).
  inv D;
    try (match goal with HM : MovingArgs _ _ _ _ _ _ |- _ => 
      case_split; eapply MovingArgs_case in HM as (? & ? & ?); [|eassumption];
      eexists; split; [econstructor; try eassumption; eauto;
         try (eapply HCC; [eassumption|eassumption|lia]); try (eapply DigitVal_case; eassumption)
        |cbn; splits; auto]; fail end);
    try (match goal with HM : jl_of _ = _ |- _ => 
      case_split; pose proof (jl_of_range _ _ HM);
      match goal with HC : CaseCh _ ?y |- _ => apply CaseCh_fixed in HC; [subst y|lia] end end);
    try (match goal with HM : jp_of _ = _ |- _ => 
      case_split; pose proof (jp_of_range _ _ HM);
      match goal with HC : CaseCh _ ?y |- _ => apply CaseCh_fixed in HC; [subst y|lia] end end);
    case_split;
    try (eexists; split; [econstructor; eauto; fail|exact CR]);
    try (eexists; split; [econstructor; eauto; fail|cbn; auto; fail]).
  - eexists. split; [|exact CR]. constructor; eauto. eapply OptText_case; eauto.
  - eexists. split; [|exact CR]. constructor; eauto; [eapply HCC; eauto; lia|].
    eapply SepOpt_case; eauto using le99_case, sep_o_case.
  - eexists. split; [|exact CR]. constructor; eauto; [eapply HCC; eauto; lia|].
    eapply SepOpt_case; eauto using le99_case, sep_t_case.
  - eexists. split; [|exact CR]. constructor; eauto using DigitVal_case.
  - eexists. split; [|exact CR]. constructor. eapply SepOpt_case; eauto using sep_o_case.
Qed.

Lemma letters_check l :
  forallb (fun c => ((97 <=? c) && (c <=? 122)) || (c =? 47)) l = true ->
  Forall (fun c => 97 <= c <= 122 \/ c = 47) l.
Proof.
  intros H. rewrite forallb_forall in H. apply Forall_forall. intros c Hc. apply H in Hc. lia.
Qed.

Lemma code_letters l : In l known_codes -> Forall (fun c => 97 <= c <= 122 \/ c = 47) (lit l).
Proof.
  intros H. unfold known_codes in H. cbn [In] in H.
  repeat destruct H as [<-|H]; try contradiction; now apply letters_check.
Qed.

Lemma ArgDenotes_known l r v : ArgDenotes l r v -> In l known_codes.
Proof. intros H. inv H; unfold known_codes; cbn; tauto. Qed.

Lemma Forall2_code l k k' : Forall (fun c => 97 <= c <= 122 \/ c = 47) l ->
  CaseEq k k' -> Forall2 CodeCh l k -> Forall2 CodeCh l k'.
Proof.
  intros HL HE H. revert k' HE. induction H; intros k' HE; inv HE; inv HL; constructor; auto.
  eapply CodeCh_case; eauto.
Qed.

Lemma TagDenotes_case b b' v : CaseEq b b' -> TagDenotes b v ->
  exists v', TagDenotes b' v' /\ CaseEqValue v v'.
Proof.
  intros H (l & k & r & -> & HC & HA). apply Forall2_app_inv_l in H as (k' & r' & Hk & Hr & ->).
  destruct (ArgDenotes_case _ _ _ _ Hr HA) as (v' & HA' & HE).
  exists v'. split; auto. exists l, k', r'. splits; auto.
  eapply Forall2_code; eauto. eapply code_letters, ArgDenotes_known; eauto.
Qed.

Lemma SplitsChar_case b b' : CaseEq b b' -> SplitsChar b -> SplitsChar b'.
Proof.
  intros H (l & k & r & -> & HC & HA). apply Forall2_app_inv_l in H as (k' & r' & Hk & Hr & ->).
  exists l, k', r'. splits; auto.
  - eapply Forall2_code; eauto. apply code_letters.
    inv HA; unfold known_codes; cbn; tauto.
  - inv HA; case_split; repeat match goal with
      | HH : CaseCh ?c ?y, HG : 128 <= ?c |- _ => apply CaseCh_fixed in HH; [subst y|lia] end;
    econstructor; eauto; try (eapply CodeCh_case; [|eassumption|eassumption]; lia);
      eapply DigitVal_case; eauto.
Qed.

Lemma KnownCode_case b b' : CaseEq b b' -> KnownCode b -> KnownCode b'.
Proof.
  intros H [(l & k & r & Hl & HC & ->) HN]. split.
  - apply Forall2_app_inv_l in H as (k' & r' & Hk & Hr & ->).
    exists l, k', r'. splits; auto. eapply Forall2_code; eauto. now apply code_letters.
  - intros (k2 & r2 & HC2 & ->). apply CaseEq_sym in H.
    apply Forall2_app_inv_l in H as (k' & r' & Hk & Hr & E). apply HN.
    exists k', r'. splits; auto. eapply Forall2_code; eauto.
    now apply letters_check.
Qed.

(** Outcomes of two tags that differ only in case. *)
Lemma parse_tag_case b b' : CaseEq b b' ->
  match parse_tag b, parse_tag b' with
  | Val (Ok v), Val (Ok v') => CaseEqValue v v'
  | Val (Err (SUnsupportedTag t)), Val (Err (SUnsupportedTag t')) => t = b /\ t' = b'
  | Val (Err (SUnsupportedTagValue t)), Val (Err (SUnsupportedTagValue t')) => t = b /\ t' = b'
  | Panic, Panic => True
  | _, _ => False
  end.
Proof.
  intros H.
  destruct (parse_tag_total b) as [E|[(v & E)|[E|E]]]; rewrite E.
  - apply parse_tag_panic in E. eapply SplitsChar_case in E; eauto.
    apply parse_tag_panic in E. now rewrite E.
  - apply parse_tag_ok in E. eapply TagDenotes_case in E as (v' & E & HV); eauto.
    apply parse_tag_ok in E. now rewrite E.
  - apply parse_tag_err_value in E as (_ & HK & HV & HS).
    destruct (parse_tag_total b') as [E'|[(v' & E')|[E'|E']]]; rewrite E'; auto.
    + apply parse_tag_panic in E'. apply HS. eapply SplitsChar_case; eauto using CaseEq_sym.
    + apply parse_tag_ok in E'. eapply TagDenotes_case in E' as (v & E & _);
        [|apply CaseEq_sym; eauto]. eapply HV; eauto.
    + apply parse_tag_err_tag in E' as (_ & HK'). apply HK'. eapply KnownCode_case; eauto.
  - pose proof E as E0. apply parse_tag_err_tag in E as (_ & HK).
    destruct (parse_tag_total b') as [E'|[(v' & E')|[E'|E']]]; rewrite E'; auto.
    + apply parse_tag_panic in E'. eapply SplitsChar_case in E'; [|apply CaseEq_sym; eauto].
      apply parse_tag_panic in E'. congruence.
    + apply parse_tag_ok in E'. eapply TagDenotes_case in E' as (v & E & _);
        [|apply CaseEq_sym; eauto]. apply parse_tag_ok in E. congruence.
    + apply parse_tag_err_value in E' as (_ & HK' & _). apply HK. eapply KnownCode_case; eauto using CaseEq_sym.
Qed.
