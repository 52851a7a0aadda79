(** When the layout of a text rectangle is regular. *)

From Coq Require Import String ZifyBool ZifyNat.
From Verif Require Import Base Str Multi Color Raster Font Graphic Config Sign Render
  Spec_Multi Spec_Color Spec_Font Spec_Tfon Spec_Graphic Spec_Sign Spec_Render Spec_Layout Spec_Page
  Proofs_Str Proofs_Font Proofs_Glyph Proofs_Iter Proofs_Color Proofs_Sign Proofs_Machine Proofs_Pages Proofs_Count
  Proofs_Render Proofs_Norm Proofs_Build Proofs_Horiz Proofs_Vert Proofs_Layout Proofs_Place Proofs_Each Proofs_Page.
Open Scope list_scope.
Ltac Zify.zify_post_hook ::= Z.div_mod_to_equations.

Lemma snoc_cases {A} (l : list A) : l = [] \/ exists r x, l = r ++ [x].
Proof. destruct l using rev_ind; eauto. Qed.

Lemma Numbered_snoc l t : Numbered l -> (forall s, In s l -> SameRun s t -> s_number s < s_number t) -> Numbered (l ++ [t]).
Proof.
  intros HN H a s b u c E R. destruct (snoc_cases c) as [->|(c' & x & ->)].
  - change (s :: b ++ [u]) with ((s :: b) ++ [u]) in E. rewrite app_assoc in E. apply app_inj_tail in E as [-> <-].
    apply H; auto. apply in_elt.
  - change (s :: b ++ u :: c' ++ [x]) with ((s :: b) ++ (u :: c') ++ [x]) in E. rewrite !app_assoc in E.
    apply app_inj_tail in E as [E _]. apply (HN a s b u c'); auto. rewrite E, <- app_assoc. reflexivity.
Qed.

Lemma Stacked_snoc l t : Stacked l -> 0 <= s_line t ->
  (s_line t = 0 \/ exists s, In s l /\ SameBlock t s /\ s_line s = s_line t - 1) -> Stacked (l ++ [t]).
Proof.
  intros HN H0 H a s b E. destruct (snoc_cases b) as [->|(b' & x & ->)].
  - apply app_inj_tail in E as [-> <-]. auto.
  - rewrite app_comm_cons, app_assoc in E. apply app_inj_tail in E as [-> _]. apply (HN a s b'). reflexivity.
Qed.

Lemma texts_app d c : forall vs a ws, texts d c a (vs ++ ws) = texts d c a vs ++ texts d c (a ++ vs) ws.
Proof.
  induction vs as [|v vs IH]; intros a ws; cbn [app texts]; [now rewrite app_nil_r|].
  rewrite IH, <- !app_assoc. reflexivity.
Qed.

Lemma fresh_at_snoc d : forall vs past n v,
  fresh_at d past n (vs ++ [v]) =
  match v with
  | VText _ | VHexadecimalCharacter _ => false
  | VNewLine _ => true
  | _ => if changes_jp d (past ++ vs) v then true else fresh_at d past n vs
  end.
Proof.
  induction vs as [|w vs IH]; intros past n v.
  - cbn. now rewrite app_nil_r.
  - cbn [app fresh_at]. rewrite IH. rewrite <- app_assoc. reflexivity.
Qed.

Lemma jl_rank_inj a b : jl_rank a = jl_rank b -> a = b.
Proof. destruct a, b; cbn; intros; auto; lia. Qed.
Lemma jp_rank_inj a b : jp_rank a = jp_rank b -> a = b.
Proof. destruct a, b; cbn; intros; auto; lia. Qed.

Section Orderly.
Variables (d : Dms) (c : Place).
Local Notation past := (pl_earlier c ++ pl_upto c).

Record Inv (vs : list Value) : Prop := {
  iv_line : 0 <= line_at d past 0 vs;
  iv_none : has_text vs = false -> texts d c [] vs = [];
  iv_jp : forall s, In s (texts d c [] vs) -> jp_rank (s_jp s) <= jp_rank (jp_of d (past ++ vs));
  iv_same : forall s, In s (texts d c [] vs) -> s_jp s = jp_of d (past ++ vs) ->
      s_line s <= line_at d past 0 vs
      /\ (fresh_at d past true vs = true -> s_line s < line_at d past 0 vs)
      /\ (s_line s = line_at d past 0 vs -> jl_rank (s_jl s) <= jl_rank (jl_of d (past ++ vs))
            /\ (s_jl s = jl_of d (past ++ vs) -> s_number s < text_at d past 0 vs));
  iv_some : fresh_at d past true vs = false ->
      exists s, In s (texts d c [] vs) /\ s_jp s = jp_of d (past ++ vs) /\ s_line s = line_at d past 0 vs;
  iv_above : line_at d past 0 vs = 0
      \/ exists s, In s (texts d c [] vs) /\ s_jp s = jp_of d (past ++ vs) /\ s_line s = line_at d past 0 vs - 1;
  iv_numbered : Numbered (texts d c [] vs);
  iv_stacked : Stacked (texts d c [] vs) }.

(** A span at this point. *)
Lemma add_span vs t : Inv vs -> span_state t = setting d c vs ->
  Numbered (texts d c [] vs ++ [t]) /\ Stacked (texts d c [] vs ++ [t]).
Proof.
  intros [L0 N0 J S0 F A HN HS] E.
  assert (E1 : s_jp t = jp_of d (past ++ vs)) by (unfold s_jp; rewrite E; reflexivity).
  assert (E2 : s_jl t = jl_of d (past ++ vs)) by (unfold s_jl; rewrite E; reflexivity).
  assert (E3 : s_line t = line_at d past 0 vs) by (unfold s_line; rewrite E; reflexivity).
  assert (E4 : s_number t = text_at d past 0 vs) by (unfold s_number; rewrite E; reflexivity).
  split.
  - apply Numbered_snoc; auto. intros s I (R1 & R2 & R3). rewrite E4.
    destruct (S0 s I) as (_ & _ & K); [congruence|]. apply K; congruence.
  - apply Stacked_snoc; auto; [lia|]. rewrite E3. destruct A as [A|(s & I & A1 & A2)]; auto.
    right. exists s. splits; auto. unfold SameBlock. congruence.
Qed.

Lemma force_snoc_none {A} (f : Value -> option A) x vs v : f v = None ->
  in_force f x (past ++ vs ++ [v]) = in_force f x (past ++ vs).
Proof. intros E. rewrite app_assoc, in_force_snoc, E. reflexivity. Qed.

(** A value that changes nothing but settings of no concern. *)
Lemma step_plain vs v : Inv vs -> says_jl d v = None -> says_jp d v = None -> ~ shows_text v ->
  (forall n, v <> VNewLine n) -> Inv (vs ++ [v]).
Proof.
  intros HI Ejl Ejp Ht Hn.
  assert (Ec : forall p, changes_jp d p v = false) by (intros p; unfold changes_jp; now rewrite Ejp).
  assert (T : texts d c [] (vs ++ [v]) = texts d c [] vs).
  { rewrite texts_app. cbn [app texts]. destruct v; try (now rewrite app_nil_r); exfalso; try (now apply Ht); eapply Hn; eauto. }
  assert (LN : line_at d past 0 (vs ++ [v]) = line_at d past 0 vs).
  { rewrite line_at_snoc, Ec. destruct v; auto. exfalso; eapply Hn; eauto. }
  assert (NB : text_at d past 0 (vs ++ [v]) = text_at d past 0 vs).
  { rewrite text_at_snoc, Ec. destruct v; auto; try discriminate Ejl; exfalso; try (now apply Ht); eapply Hn; eauto. }
  assert (FR : fresh_at d past true (vs ++ [v]) = fresh_at d past true vs).
  { rewrite fresh_at_snoc, Ec. destruct v; auto; exfalso; try (now apply Ht); eapply Hn; eauto. }
  assert (HT : has_text (vs ++ [v]) = has_text vs).
  { unfold has_text. rewrite existsb_app. cbn. destruct v; cbn; rewrite ?orb_false_r; auto; exfalso; try (now apply Ht); eapply Hn; eauto. }
  destruct HI. constructor; rewrite ?T, ?LN, ?NB, ?FR, ?HT; unfold jp_of, jl_of in *;
    rewrite ?(force_snoc_none (says_jp d)), ?(force_snoc_none (says_jl d)) by assumption; auto.
Qed.

Lemma step_text vs v : Inv vs -> shows_text v -> Inv (vs ++ [v]).
Proof.
  intros HI Ht.
  assert (exists t, texts d c [] (vs ++ [v]) = texts d c [] vs ++ [t] /\ span_state t = setting d c vs) as (t & T & Et).
  { rewrite texts_app. destruct v; try contradiction; cbn [app texts]; eexists; (split; [rewrite ?app_nil_r; reflexivity|reflexivity]). }
  destruct (add_span vs t HI Et) as [HN HS].
  assert (E1 : s_jp t = jp_of d (past ++ vs)) by (unfold s_jp; rewrite Et; reflexivity).
  assert (E2 : s_jl t = jl_of d (past ++ vs)) by (unfold s_jl; rewrite Et; reflexivity).
  assert (E3 : s_line t = line_at d past 0 vs) by (unfold s_line; rewrite Et; reflexivity).
  assert (E4 : s_number t = text_at d past 0 vs) by (unfold s_number; rewrite Et; reflexivity).
  assert (EJP : jp_of d (past ++ vs ++ [v]) = jp_of d (past ++ vs)).
  { unfold jp_of. apply force_snoc_none. destruct v; try contradiction; reflexivity. }
  assert (EJL : jl_of d (past ++ vs ++ [v]) = jl_of d (past ++ vs)).
  { unfold jl_of. apply force_snoc_none. destruct v; try contradiction; reflexivity. }
  assert (LN : line_at d past 0 (vs ++ [v]) = line_at d past 0 vs).
  { rewrite line_at_snoc. destruct v; try contradiction; reflexivity. }
  assert (NB : text_at d past 0 (vs ++ [v]) = text_at d past 0 vs + 1).
  { rewrite text_at_snoc. destruct v; try contradiction; reflexivity. }
  assert (FR : fresh_at d past true (vs ++ [v]) = false).
  { rewrite fresh_at_snoc. destruct v; try contradiction; reflexivity. }
  destruct HI as [L0 N0 J S0 F A _ _]. constructor; rewrite ?T, ?LN, ?NB, ?FR, ?EJP, ?EJL; auto.
  - unfold has_text. rewrite existsb_app. destruct v; try contradiction; cbn; rewrite orb_true_r; discriminate.
  - intros s I. apply in_app_or in I as [I|[<-|[]]]; auto. rewrite E1. lia.
  - intros s I E. apply in_app_or in I as [I|[<-|[]]].
    + destruct (S0 s I E) as (K1 & K2 & K3). splits; auto; [discriminate|].
      intros K. destruct (K3 K) as [K4 K5]. split; auto. intros K6. specialize (K5 K6). lia.
    + splits; [lia|discriminate|]. intros _. rewrite E2. split; [lia|]. lia.
  - intros _. exists t. splits; auto. apply in_or_app. right. now left.
  - destruct A as [A|(s & I & A)]; auto. right. exists s. split; auto. apply in_or_app. now left.
Qed.

Lemma step_line vs n : Inv vs -> blank_line vs = true \/ fresh_at d past true vs = false -> Inv (vs ++ [VNewLine n]).
Proof.
  intros HI HO.
  assert (EJP : jp_of d (past ++ vs ++ [VNewLine n]) = jp_of d (past ++ vs)) by (apply force_snoc_none; reflexivity).
  assert (EJL : jl_of d (past ++ vs ++ [VNewLine n]) = jl_of d (past ++ vs)) by (apply force_snoc_none; reflexivity).
  assert (LN : line_at d past 0 (vs ++ [VNewLine n]) = line_at d past 0 vs + 1) by (now rewrite line_at_snoc).
  assert (FR : fresh_at d past true (vs ++ [VNewLine n]) = true) by (now rewrite fresh_at_snoc).
  assert (T : texts d c [] (vs ++ [VNewLine n]) =
              texts d c [] vs ++ (if blank_line vs then [SpText (setting d c vs) []] else [])).
  { rewrite texts_app. cbn [texts app]. now rewrite app_nil_r. }
  set (t := SpText (setting d c vs) []) in *.
  destruct (add_span vs t HI eq_refl) as [HN HS].
  assert (HNT : has_text (vs ++ [VNewLine n]) = true).
  { unfold has_text. rewrite existsb_app. cbn. now rewrite orb_true_r. }
  destruct HI as [L0 N0 J S0 F A HN0 HS0]. constructor; rewrite ?T, ?LN, ?FR, ?EJP, ?EJL, ?HNT.
  - lia.
  - discriminate.
  - intros s I. destruct (blank_line vs); [|rewrite app_nil_r in I; auto].
    apply in_app_or in I as [I|[<-|[]]]; auto. cbn. lia.
  - intros s I E.
    assert (s_line s <= line_at d past 0 vs).
    { destruct (blank_line vs); [|rewrite app_nil_r in I; now apply S0].
      apply in_app_or in I as [I|[<-|[]]]; [now apply S0|]. unfold t, s_line. cbn. lia. }
    splits; lia.
  - discriminate.
  - right. destruct (blank_line vs) eqn:EB.
    + exists t. splits; [apply in_or_app; right; now left|reflexivity|]. unfold t, s_line. cbn. lia.
    + destruct HO as [HO|HO]; [discriminate|]. destruct (F HO) as (s & I & K1 & K2). exists s.
      rewrite app_nil_r. splits; auto. lia.
  - destruct (blank_line vs); auto. now rewrite app_nil_r.
  - destruct (blank_line vs); auto. now rewrite app_nil_r.
Qed.

Lemma step_jl vs j : Inv vs -> fresh_at d past true vs = true
    \/ jl_rank (jl_of d (past ++ vs)) < jl_rank (jl_of d (past ++ vs ++ [VJustificationLine j])) ->
  Inv (vs ++ [VJustificationLine j]).
Proof.
  intros HI HO. set (v := VJustificationLine j) in *.
  assert (EJP : jp_of d (past ++ vs ++ [v]) = jp_of d (past ++ vs)) by (apply force_snoc_none; reflexivity).
  assert (LN : line_at d past 0 (vs ++ [v]) = line_at d past 0 vs) by (now rewrite line_at_snoc).
  assert (FR : fresh_at d past true (vs ++ [v]) = fresh_at d past true vs) by (now rewrite fresh_at_snoc).
  assert (T : texts d c [] (vs ++ [v]) = texts d c [] vs).
  { rewrite texts_app. cbn [texts app v]. now rewrite app_nil_r. }
  assert (HT : has_text (vs ++ [v]) = has_text vs).
  { unfold has_text. rewrite existsb_app. cbn. now rewrite orb_false_r. }
  destruct HI as [L0 N0 J S0 F A HN0 HS0]. constructor; rewrite ?T, ?LN, ?FR, ?EJP, ?HT; auto.
  intros s I E. destruct (S0 s I E) as (K1 & K2 & K3). splits; auto. intros K. destruct HO as [HO|HO].
  - specialize (K2 HO). lia.
  - destruct (K3 K) as [K4 _]. split; [lia|]. intros K5. rewrite K5 in K4. lia.
Qed.

Lemma step_jp vs j : Inv vs -> has_text vs = false \/ changes_jp d (past ++ vs) (VJustificationPage j) = false
    \/ jp_rank (jp_of d (past ++ vs)) < jp_rank (jp_of d (past ++ vs ++ [VJustificationPage j])) ->
  Inv (vs ++ [VJustificationPage j]).
Proof.
  intros HI HO. set (v := VJustificationPage j) in *.
  assert (EJL : jl_of d (past ++ vs ++ [v]) = jl_of d (past ++ vs)) by (apply force_snoc_none; reflexivity).
  assert (T : texts d c [] (vs ++ [v]) = texts d c [] vs).
  { rewrite texts_app. cbn [texts app v]. now rewrite app_nil_r. }
  assert (HT : has_text (vs ++ [v]) = has_text vs).
  { unfold has_text. rewrite existsb_app. cbn. now rewrite orb_false_r. }
  destruct (changes_jp d (past ++ vs) v) eqn:EC.
  - assert (LN : line_at d past 0 (vs ++ [v]) = 0) by (rewrite line_at_snoc; cbn [v]; fold v; now rewrite EC).
    assert (FR : fresh_at d past true (vs ++ [v]) = true) by (rewrite fresh_at_snoc; cbn [v]; fold v; now rewrite EC).
    destruct HI as [L0 N0 J S0 F A HN0 HS0]. constructor; rewrite ?T, ?LN, ?FR, ?EJL, ?HT; auto; try lia; try discriminate.
    + intros s I. destruct HO as [HO|[HO|HO]]; [|discriminate HO|].
      * rewrite (N0 HO) in I. destruct I.
      * specialize (J s I). lia.
    + intros s I E. exfalso. destruct HO as [HO|[HO|HO]]; [|discriminate HO|].
      * rewrite (N0 HO) in I. destruct I.
      * specialize (J s I). rewrite E in J. lia.
  - assert (EJP : jp_of d (past ++ vs ++ [v]) = jp_of d (past ++ vs)).
    { unfold jp_of. rewrite app_assoc, in_force_snoc. unfold changes_jp in EC. cbn [says_jp v] in *.
      destruct (jp_eqb _ _) eqn:EE; [|discriminate EC]. apply jp_eqb_eq in EE. exact EE. }
    assert (LN : line_at d past 0 (vs ++ [v]) = line_at d past 0 vs) by (rewrite line_at_snoc; cbn [v]; fold v; now rewrite EC).
    assert (NB : text_at d past 0 (vs ++ [v]) = text_at d past 0 vs) by (rewrite text_at_snoc; cbn [v]; fold v; now rewrite EC).
    assert (FR : fresh_at d past true (vs ++ [v]) = fresh_at d past true vs) by (rewrite fresh_at_snoc; cbn [v]; fold v; now rewrite EC).
    destruct HI as [L0 N0 J S0 F A HN0 HS0]. constructor; rewrite ?T, ?LN, ?NB, ?FR, ?EJP, ?EJL, ?HT; auto.
Qed.

Lemma orderly_inv vs : Orderly d past vs -> Inv vs.
Proof.
  induction vs as [|v vs IH] using rev_ind; intros HO.
  - constructor; cbn; auto; try lia; try (now intros ? []); try discriminate.
    + intros a s b t e E. destruct a; discriminate E.
    + intros a s b E. destruct a; discriminate E.
  - assert (HI : Inv vs).
    { apply IH. intros a w b ->. specialize (HO a w (b ++ [v])). rewrite <- app_assoc in HO. exact (HO eq_refl). }
    specialize (HO vs v [] eq_refl).
    destruct v; try (apply step_plain; auto; try reflexivity; try discriminate; fail);
      try (apply step_text; auto; exact I).
    + now apply step_jl.
    + now apply step_jp.
    + now apply step_line.
Qed.

Lemma orderly vs : Orderly d past vs -> Numbered (texts d c [] vs) /\ Stacked (texts d c [] vs).
Proof. intros H. apply orderly_inv in H. destruct H; auto. Qed.
End Orderly.
