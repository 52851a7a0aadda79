(** Proofs for C82. *)

From Verif Require Import Base Str Multi Color Raster Font Graphic Config Sign Render
  Spec_Multi Spec_Font Spec_Sign Spec_Render Spec_Gamut Spec_Alike Spec_Capable
  Proofs_Str Proofs_Split Proofs_Norm Proofs_Parse Proofs_Tag Proofs_Case Proofs_Iter Proofs_Machine Proofs_Reach Proofs_Pages Proofs_Sign Proofs_Gamut Proofs_Alike.
Open Scope list_scope.

Section More.
Variables (d d' : Dms) (ms : str).
Hypotheses (HS : SameLook d d') (HF : forall n, UsesFont d ms n -> SameFont d d' n)
  (HG : forall n, UsesGraphic ms n -> SameGraphic d d' n) (HM : MoreTags d d' ms).

Lemma more_check xs : told ms xs -> forall r, check_unsupported d (bare xs) = r ->
  (forall s, r <> Val (Err (SUnsupportedTag s))) -> check_unsupported d' (bare xs) = r.
Proof.
  induction xs as [|x xs IH]; intros HT r H N; cbn [bare map check_unsupported] in *; auto.
  destruct x as [[v|e]| |]; cbn [try] in *; auto.
  assert (HT' : told ms xs) by (intros w I; apply HT; now right).
  destruct (value_tag v) as [t|] eqn:E; [|now apply IH].
  destruct (contains_tag (supported_multi_tags (d_multi_cfg d)) t) eqn:C; cbn [negb] in H.
  - pose proof (proj2 (supports_tag d v t E) C) as S. apply HM in S; [|apply HT; now left].
    rewrite (proj1 (supports_tag d' v t E) S). cbn [negb]. destruct (tag_bit t =? tag_bit TNp); auto.
  - exfalso. symmetry in H. now apply (N _ H).
Qed.

Lemma more_on_page md p p' x : told ms (ap_rest p) -> fonted d ms (ap_rs p) ->
  a_on_page md d p = Val (p', x) -> NoTagError x -> a_on_page md d' p = Val (p', x).
Proof.
  intros HT HP H N. unfold a_on_page in *. cbv zeta in *. rewrite <- (same_new d d' HS).
  apply bind_val in H as (c & HC & H).
  rewrite (more_check (ap_rest p) HT _ HC).
  2: { intros s E. destruct c as [c|e]; [discriminate E|]. injection E as ->. injection H as _ <-. now apply (N s). }
  cbn [bind]. destruct c as [c|e]; [|exact H].
  apply bind_val in H as ([rs u] & HU & H). rewrite HU. cbn [bind]. destruct u; [|exact H].
  apply update_font in HU. cbn in HU.
  rewrite <- (same_page_loop d d' ms HS HF HG); [exact H|exact HT|]. unfold fonted. cbn [ap_rs]. rewrite HU. exact HP.
Qed.

Lemma more_take md n : forall p l, told ms (ap_rest p) -> fonted d ms (ap_rs p) ->
  a_take md d n p = Val l -> Forall NoTagError l -> a_take md d' n p = Val l.
Proof.
  induction n as [|n IH]; intros p l HT HP H N; cbn [a_take] in *; auto.
  apply bind_val in H as ([o q] & HX & H). destruct o as [x|].
  - apply bind_val in H as (l' & HL & H). injection H as <-. inversion N as [|? ? N1 N2]; subst.
    assert (E : a_next md d' p = Val (Some x, q) /\ told ms (ap_rest q) /\ fonted d ms (ap_rs q)).
    { unfold a_next in *. destruct (ap_state p).
      - apply bind_val in HX as ([p1 r1] & HX & HY). injection HY as -> <-.
        rewrite (more_on_page md p _ _ HT HP HX N1). split; [reflexivity|]. eapply on_page_fonted; eauto.
      - injection HX as <- <-. auto.
      - discriminate HX. }
    destruct E as (-> & E1 & E2). cbn [bind]. rewrite (IH q l' E1 E2 HL N2). reflexivity.
  - assert (a_next md d' p = Val (None, q)) as ->; [|exact H].
    unfold a_next in *. destruct (ap_state p); [|discriminate HX|exact HX]. apply bind_val in HX as ([p1 r1] & _ & HY). discriminate HY.
Qed.
End More.

Lemma more_pages md d d' n ms l : SameLook d d' -> SameStock d d' ms -> MoreTags d d' ms ->
  pages_take md d n (pages_new d ms) = Val l -> Forall NoTagError l ->
  pages_take md d' n (pages_new d' ms) = Val l.
Proof.
  intros HS [HF HG] HM H N. destruct (Tokens_exists ms) as (ts & HT).
  rewrite (take_start md d n ms _ (Reads_new _ _ HT)) in H. rewrite (take_start md d' n ms _ (Reads_new _ _ HT)).
  unfold a_start in *. rewrite <- (same_new d d' HS). apply (more_take d d' ms HS HF HG HM md n _ l); [| |exact H|exact N].
  - intros v I. cbn in I. apply in_map_iff in I as (t & E & I).
    pose proof (Tokens_Token _ _ HT) as HK. rewrite Forall_forall in HK. destruct (HK t I) as (rest & HTk).
    exists ts, t. splits; auto. eapply try_Token; eauto.
  - constructor.
Qed.
