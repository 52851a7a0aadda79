(** The page renderer on a message with joined texts (C50). *)

From Coq Require Import String ZifyBool ZifyNat.
From Verif Require Import Base Str Multi Color Raster Font Graphic Config Sign Render
  Spec_Multi Spec_Color Spec_Font Spec_Tfon Spec_Graphic Spec_Sign Spec_Render Spec_Same Spec_Layout Spec_Page Spec_Join
  Proofs_Str Proofs_Iter Proofs_Norm Proofs_Machine Proofs_Same Proofs_Pages Proofs_Horiz Proofs_Layout Proofs_Page Proofs_Orderly Proofs_Join.
Open Scope list_scope.
Ltac Zify.zify_post_hook ::= Z.div_mod_to_equations.

(** ** Values with some texts joined *)

Inductive VJ : list Value -> list Value -> Prop :=
| VJ_nil : VJ [] []
| VJ_cons v l m : VJ l m -> VJ (v :: l) (v :: m)
| VJ_join t u l m : t <> [] -> u <> [] -> VJ l m -> VJ (VText t :: VText u :: l) (VText (t ++ u) :: m).

Lemma check_join_vals d vs ws : VJ vs ws -> check_unsupported d (bare (lift ws)) = check_unsupported d (bare (lift vs)).
Proof.
  induction 1 as [|v l m H IH|t u l m NT NU H IH]; auto;
    cbn [bare lift map check_unsupported bind try value_tag]; fold (lift l) (lift m) (bare (lift l)) (bare (lift m)); auto.
  rewrite IH. reflexivity.
Qed.

Lemma update_join ds vs ws : VJ vs ws -> forall rs,
  update_page_loop ds (bare (lift ws)) rs = update_page_loop ds (bare (lift vs)) rs.
Proof.
  induction 1 as [|v l m H IH|t u l m NT NU H IH]; intros rs; auto;
    cbn [bare lift map update_page_loop bind try]; fold (lift l) (lift m) (bare (lift l)) (bare (lift m)); auto.
  destruct v; auto.
  - destruct (set_background (rs_ctx rs) c (VColorBackground c)) as [ctx [[]|]]; auto.
  - destruct (set_background (rs_ctx rs) c (VPageBackground c)) as [ctx [[]|]]; auto.
Qed.

Lemma graphics_join md d vs ws : VJ vs ws -> forall ctx raster,
  render_graphics_loop md d (bare (lift ws)) ctx raster = render_graphics_loop md d (bare (lift vs)) ctx raster.
Proof.
  assert (HT : forall A B E (m : M (result A E)) (k l : A -> M (result B E)),
             (forall a, k a = l a) -> try m k = try m l).
  { intros A B E m k l H. destruct m as [[a|e]| |]; cbn [try]; auto. }
  induction 1 as [|v l m H IH|t u l m NT NU H IH]; intros ctx raster; auto;
    cbn [bare lift map render_graphics_loop bind]; fold (lift l) (lift m) (bare (lift l)) (bare (lift m)).
  - apply HT. intros v'. destruct v'; auto;
      try apply IH;
      try (destruct (set_background _ _ _) as [c0 o]; apply HT; intros []; apply IH);
      try (destruct (set_foreground _ _ _) as [c0 o]; apply HT; intros []; apply IH).
    + destruct (set_foreground _ _ _) as [c0 o]; apply HT; intros []. apply HT. intros a. apply IH.
    + destruct p as [((x0 & y0) & gid)|]; apply HT; intros; apply HT; intros; apply IH.
  - cbn [try]. apply IH.
Qed.

(** ** Numbers of joined spans *)

Definition at_state (rs : RenderState) : Span := SpText rs [].

Record JI (l m : list Span) (rs : RenderState) (k : Z) : Prop := {
  ji_k : 0 <= k <= rs_span rs /\ rs_span rs < 256;
  ji_lj : LJ l m;
  ji_l : forall x, In x l -> 0 <= s_number x;
  ji_m : forall x, In x m -> u8 (s_number x);
  ji_num : Numbered l -> Numbered m /\ forall x, In x m -> SameRun x (at_state rs) ->
    s_number x < k \/ exists y, In y l /\ SameRun y (at_state rs) /\ rs_span rs <= s_number y }.

Lemma Numbered_cut l r : Numbered (l ++ r) -> Numbered l.
Proof. intros H a s b t c -> R. apply (H a s b t (c ++ r)); auto. rewrite <- !app_assoc. cbn. rewrite <- app_assoc. reflexivity. Qed.

Lemma LJ_from l m : LJ l m -> forall y, In y m -> exists x, In x l /\ StSame x y.
Proof.
  induction 1 as [|x y l m S L IH|st t u k n l m NT NU L IH]; intros z I; [destruct I| |]; destruct I as [<-|I].
  - exists x. split; [now left|now apply Same_state].
  - destruct (IH z I) as (x' & I' & S'). exists x'. split; auto. now right.
  - exists (SpText st t). split; [now left|]. exists n. reflexivity.
  - destruct (IH z I) as (x' & I' & S'). exists x'. split; auto. right. now right.
Qed.

Lemma SameRun_st x y z : StSame x y -> SameRun y z -> SameRun x z.
Proof. intros [n E] (H1 & H2 & H3). unfold SameRun, s_jp, s_line, s_jl in *. rewrite E in *. auto. Qed.

Lemma JI_start rs k : 0 <= k <= rs_span rs /\ rs_span rs < 256 -> JI [] [] rs k.
Proof.
  intros H. constructor; auto; try (intros x []); [constructor|]. intros _. split; [intros a s b t c E; destruct a; discriminate E|intros x []].
Qed.

Lemma JI_keep l m rs rs' k : rs_jp rs' = rs_jp rs -> rs_jl rs' = rs_jl rs -> rs_line rs' = rs_line rs -> rs_span rs' = rs_span rs ->
  JI l m rs k -> JI l m rs' k.
Proof.
  intros E1 E2 E3 E4 [K L H1 H2 N]. constructor; auto; [now rewrite E4|]. intros HN. destruct (N HN) as [N1 N2]. split; auto.
  intros x I R. rewrite E4. unfold SameRun, s_jp, s_line, s_jl in *. cbn [at_state span_state] in *. rewrite E1, E2, E3 in *. now apply N2.
Qed.

Lemma JI_reset l m rs rs' k : rs_span rs' = 0 -> JI l m rs k -> JI l m rs' 0.
Proof.
  intros E [K L H1 H2 N]. constructor; auto; [lia|]. intros HN. split; [now apply N|].
  intros x I R. right. destruct (LJ_from _ _ L x I) as (y & Iy & S). exists y. splits; auto; [now apply (SameRun_st y x)|].
  rewrite E. auto.
Qed.

(** One span more. *)
Lemma JI_add l m rs k ls x y : JI l m rs k ->
  span_state x = rs -> span_state y = set_span rs k -> (exists r, ls = x :: r) ->
  (forall z, In z ls -> 0 <= s_number z) -> k < 256 ->
  (Numbered (l ++ ls) -> Numbered (m ++ [y]) /\ forall z, In z (m ++ [y]) -> SameRun z (at_state rs) -> s_number z < k + 1).
Proof.
  intros [K L H1 H2 N] EX EY (r & ->) HZ K8 HN.
  assert (NL : Numbered l) by now apply Numbered_cut in HN. destruct (N NL) as [NM NK].
  assert (NN : forall z, In z m -> SameRun z (at_state rs) -> s_number z < k).
  { intros z I R. destruct (NK z I R) as [?|(q & Iq & Rq & G)]; auto. exfalso.
    apply in_split in Iq as (a & b & ->). assert (P : s_number q < s_number x).
    { apply (HN a q b x r); [now rewrite <- app_assoc|]. unfold SameRun, s_jp, s_line, s_jl in *. cbn [at_state span_state] in Rq. now rewrite EX. }
    unfold s_number in P at 2. rewrite EX in P. lia. }
  assert (EN : s_number y = k) by (unfold s_number; rewrite EY; reflexivity).
  split.
  - apply Numbered_snoc; auto. intros z I R. rewrite EN. apply NN; auto.
    unfold SameRun, s_jp, s_line, s_jl in *. rewrite EY in R. exact R.
  - intros z I R. apply in_app_or in I as [I|[<-|[]]]; [|lia]. specialize (NN z I R). lia.
Qed.

Lemma Same_set st t k : Same (SpText st t) (SpText (set_span st k) t).
Proof. constructor. Qed.

Lemma JI_one l m rs k x y n : JI l m rs k -> Same x y -> span_state x = rs -> span_state y = set_span rs k ->
  rs_span rs + 1 < 256 -> n = rs_span rs + 1 -> JI (l ++ [x]) (m ++ [y]) (set_span rs n) (k + 1).
Proof.
  intros J S EX EY B ->. pose proof J as [K L H1 H2 N].
  assert (LL : LJ (l ++ [x]) (m ++ [y])) by (apply LJ_app; auto; repeat constructor; auto).
  assert (NX : s_number x = rs_span rs) by (unfold s_number; now rewrite EX).
  assert (NY : s_number y = k) by (unfold s_number; now rewrite EY).
  constructor; auto.
  - cbn. lia.
  - intros z I. apply in_app_or in I as [I|[<-|[]]]; auto. lia.
  - intros z I. apply in_app_or in I as [I|[<-|[]]]; auto. unfold u8. lia.
  - intros HN. destruct (JI_add l m rs k [x] x y J EX EY (ex_intro _ [] eq_refl)) as [A1 A2]; auto; try lia.
    { intros z [<-|[]]. lia. }
Qed.

Lemma JI_two l m rs k t u n : JI l m rs k -> t <> [] -> u <> [] ->
  rs_span rs + 1 + 1 < 256 -> n = rs_span rs + 1 + 1 ->
  JI (l ++ [SpText rs t; SpText (set_span rs (rs_span rs + 1)) u]) (m ++ [SpText (set_span rs k) (t ++ u)]) (set_span rs n) (k + 1).
Proof.
  intros J NT NU B ->. pose proof J as [K L H1 H2 N].
  set (x := SpText rs t) in *. set (x' := SpText (set_span rs (rs_span rs + 1)) u) in *. set (y := SpText (set_span rs k) (t ++ u)) in *.
  assert (LL : LJ (l ++ [x; x']) (m ++ [y])) by (apply LJ_app; auto; apply LJ_join; auto; constructor).
  constructor; auto.
  - cbn. lia.
  - intros z I. apply in_app_or in I as [I|[<-|[<-|[]]]]; auto; unfold x, x', s_number; cbn [span_state rs_span set_span]; lia.
  - intros z I. apply in_app_or in I as [I|[<-|[]]]; auto. unfold u8, y, s_number. cbn [span_state rs_span set_span]. lia.
  - intros HN. destruct (JI_add l m rs k [x; x'] x y J eq_refl eq_refl (ex_intro _ [x'] eq_refl)) as [A1 A2]; auto; try lia.
    { intros z [<-|[<-|[]]]; unfold x, x', s_number; cbn [span_state rs_span set_span]; lia. }
Qed.

Lemma JI_blank l m rs rs' k : rs_span rs' = 0 -> JI l m rs k ->
  JI (l ++ [SpText rs []]) (m ++ [SpText (set_span rs k) []]) rs' 0.
Proof.
  intros E J. pose proof J as [K L H1 H2 N].
  assert (LL : LJ (l ++ [SpText rs []]) (m ++ [SpText (set_span rs k) []])) by (apply LJ_app; auto; repeat constructor).
  assert (HL : forall z, In z (l ++ [SpText rs []]) -> 0 <= s_number z).
  { intros z I. apply in_app_or in I as [I|[<-|[]]]; auto. unfold s_number. cbn [span_state]. lia. }
  constructor; auto.
  - lia.
  - intros z I. apply in_app_or in I as [I|[<-|[]]]; auto. unfold u8, s_number. cbn [span_state rs_span set_span]. lia.
  - intros HN. destruct (JI_add l m rs k [SpText rs []] (SpText rs []) (SpText (set_span rs k) []) J eq_refl eq_refl (ex_intro _ [] eq_refl)) as [A1 A2]; auto; try lia.
    { intros z [<-|[]]. unfold s_number. cbn [span_state]. lia. }
    split; auto. intros x I R. right. destruct (LJ_from _ _ LL x I) as (y & Iy & S). exists y. splits; auto; [now apply (SameRun_st y x)|].
    rewrite E. auto.
Qed.

(** ** A text rectangle *)

Definition JEnd (e e' : AEnd) : Prop :=
  a_res e' = Ok tt /\ a_state e' = a_state e /\ (exists k, a_rs e' = set_span (a_rs e) k)
  /\ (a_state e = PsOn false -> a_rs e' = a_rs e)
  /\ (exists vs ws, a_rest e = lift vs /\ a_rest e' = lift ws /\ VJ vs ws)
  /\ LJ (a_spans e) (a_spans e') /\ (forall x, In x (a_spans e') -> u8 (s_number x))
  /\ (Numbered (a_spans e) -> Numbered (a_spans e')).

Ltac chk8s H := match type of H with context [chk8 Debug ?a] =>
  let k := fresh "sn" in let E := fresh "EK" in
  destruct (chk8 Debug a) as [k| |] eqn:E; try discriminate H; cbn [bind] in H; apply chk8_debug in E as [-> E] end.

Lemma chk8_in n : u8 n -> chk8 Debug n = Val n.
Proof. unfold u8, chk8, chk. intros H. replace ((0 <=? n) && (n <? 256)) with true by lia. reflexivity. Qed.

Ltac go H GO := match type of H with a_rtr _ _ _ _ _ ?r _ _ = _ => exact (GO r eq_refl eq_refl eq_refl eq_refl H) end.
Ltac reset H RE := match type of H with a_rtr _ _ _ _ _ ?r ?l ?b = _ => refine (RE r l _ b eq_refl _ H) end.

Lemma rtr_join d po vs ws : VJ vs ws -> forall rs k l m lb e, JI l m rs k ->
  a_rtr Debug d (rs_new d) po (lift vs) rs l lb = Val e -> a_res e = Ok tt ->
  exists e', a_rtr Debug d (rs_new d) po (lift ws) (set_span rs k) m lb = Val e' /\ JEnd e e'.
Proof.
  induction 1 as [|v vs ws H0 IH|t u vs ws NT NU H0 IH]; intros rs k l m lb e J H RO.
  - cbn [lift map a_rtr] in *. injection H as <-. eexists. split; [reflexivity|]. destruct J as [K L H1 H2 N].
    unfold JEnd. cbn. splits; auto.
    + exists k. reflexivity.
    + destruct po; discriminate.
    + exists [], []. splits; auto. constructor.
    + intros HN. now apply N.
  - cbn [lift map a_rtr bind] in H |- *; fold (lift vs) in H; fold (lift ws).
    assert (GO : forall rs', rs_jp rs' = rs_jp rs -> rs_jl rs' = rs_jl rs -> rs_line rs' = rs_line rs -> rs_span rs' = rs_span rs ->
      a_rtr Debug d (rs_new d) po (lift vs) rs' l lb = Val e ->
      exists e', a_rtr Debug d (rs_new d) po (lift ws) (set_span rs' k) m lb = Val e' /\ JEnd e e').
    { intros rs' E1 E2 E3 E4 H'. apply (IH rs' k l m lb e); auto. now apply (JI_keep l m rs). }
    assert (RE : forall rs' l' m' lb', rs_span rs' = 0 -> JI l' m' rs' 0 ->
      a_rtr Debug d (rs_new d) po (lift vs) rs' l' lb' = Val e ->
      exists e', a_rtr Debug d (rs_new d) po (lift ws) rs' m' lb' = Val e' /\ JEnd e e').
    { intros rs' l' m' lb' E0 J' H'. destruct (IH rs' 0 l' m' lb' e J' H' RO) as (e' & E & JE).
      replace (set_span rs' 0) with rs' in E by (destruct rs'; cbn in *; now subst). eauto. }
    assert (ONE : forall x y n, Same x y -> span_state x = rs -> span_state y = set_span rs k -> n = rs_span rs + 1 -> u8 n ->
      a_rtr Debug d (rs_new d) po (lift vs) (set_span rs n) (l ++ [x]) false = Val e ->
      exists e', a_rtr Debug d (rs_new d) po (lift ws) (set_span rs (k + 1)) (m ++ [y]) false = Val e' /\ JEnd e e').
    { intros x y n S EX EY EN B H'. unfold u8 in B.
      apply (IH (set_span rs n) (k + 1) (l ++ [x]) (m ++ [y]) false e); auto. apply JI_one; auto. lia. }
    destruct v; try (go H GO).
    + destruct (set_foreground (rs_ctx rs) c (VColorForeground c)) as [ctx' [[]|]] eqn:E;
        [|injection H as <-; discriminate RO]. cbn [rs_ctx set_span]. rewrite E.
      go H GO.
    + destruct (is_charb c); [|injection H as <-; discriminate RO]. chk8s H.
      cbn [rs_span set_span]. rewrite chk8_in by (destruct J; unfold u8 in *; lia). cbn [bind].
      eapply ONE; [| | | | |exact H]; auto. constructor.
    + match type of H with context [match ?j with _ => _ end] => destruct j as [[]|] end;
        try (injection H as <-; discriminate RO);
        (reset H RE; (eapply JI_reset; [reflexivity|exact J])).
    + match type of H with context [VJustificationPage ?j] => destruct j as [[]|] end;
        try (injection H as <-; discriminate RO); cbn [rs_jp set_span] in *;
        (match type of H with context [negb (jp_eqb ?a ?b)] => destruct (jp_eqb a b) eqn:E end; cbn [negb] in *;
         [go H GO|
          reset H RE; (eapply JI_reset; [reflexivity|exact J])]).
    + match type of H with context [if ?c then _ else _] => destruct c end; [injection H as <-; discriminate RO|].
      cbn [rs_line set_line_spacing set_span] in *.
      match type of H with context [chk8 ?a ?b] => destruct (chk8 a b) as [ln| |] end; try discriminate H.
      cbn [bind] in *. reset H RE. destruct lb; [|(eapply JI_reset; [reflexivity|exact J])].
      apply JI_blank; auto.
    + injection H as <-. eexists. split; [reflexivity|]. destruct J as [K L H1 H2 N].
      unfold JEnd. cbn. splits; auto.
      * exists k. reflexivity.
      * destruct po; discriminate.
      * exists vs, ws. splits; auto.
      * intros HN. now apply N.
    + match type of H with context [if ?c then _ else _] => destruct c end; [injection H as <-; discriminate RO|].
      go H GO.
    + chk8s H.
      cbn [rs_span set_span]. rewrite chk8_in by (destruct J; unfold u8 in *; lia). cbn [bind].
      eapply ONE; [| | | | |exact H]; auto. constructor.
    + match type of H with context [update_text_rectangle ?a ?b ?c ?e] => destruct (update_text_rectangle a b c e) as [[r'|]| |] end;
        try discriminate H; cbn [bind] in *; [|injection H as <-; discriminate RO].
      injection H as <-. eexists. split; [reflexivity|]. destruct J as [K L H1 H2 N].
      unfold JEnd. cbn. splits; auto.
      * exists 0. reflexivity.
      * exists vs, ws. splits; auto.
      * intros HN. now apply N.
  - cbn [lift map a_rtr bind] in H |- *; fold (lift vs) in H; fold (lift ws).
    chk8s H. chk8s H. cbn [rs_span set_span] in *.
    rewrite chk8_in by (destruct J; unfold u8 in *; lia). cbn [bind]. rewrite <- app_assoc in H. cbn [app] in H.
    unfold u8 in *.
    refine (IH (set_span rs (rs_span rs + 1 + 1)) (k + 1) _ _ false e _ H RO). apply JI_two; auto; lia.
Qed.
