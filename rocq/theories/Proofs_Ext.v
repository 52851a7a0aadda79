(** Pages do not depend on what follows them; which errors are for too many
    text rectangles. *)

From Coq Require Import String.
From Verif Require Import Base Str Multi Color Raster Font Graphic Config Sign Render
  Spec_Multi Spec_Render Proofs_Str Proofs_Split Proofs_Tag Proofs_Norm Proofs_Iter Proofs_Machine Proofs_Pages Proofs_Reach.
Open Scope list_scope.

(** [Cont a b]: [b] is [a] with a new page and [ys] after it; a last piece of
    [a] that is not a value may have become something else. *)
Section More.
Variable ys : Outcomes.
Inductive Cont : Outcomes -> Outcomes -> Prop :=
| Ct_end : Cont [] (Val (Ok VNewPage) :: ys)
| Ct_bad x us : (forall v, x <> Val (Ok v)) -> Cont [x] us
| Ct_cons x a b : Cont a b -> Cont (x :: a) (x :: b).

Lemma try_okE {A B E} (m : M (result A E)) (k : A -> M (result B E)) b :
  try m k = Val (Ok b) -> exists a, m = Val (Ok a) /\ k a = Val (Ok b).
Proof. destruct m as [[a|e]| |]; cbn [try]; try discriminate. eauto. Qed.

Lemma check_cont d a b u : Cont a b -> Lists d TNp ->
  check_unsupported d (bare a) = Val (Ok u) -> check_unsupported d (bare b) = Val (Ok u).
Proof.
  intros HC HN. destruct u. induction HC as [|x us Hx|x a b HC IH]; cbn [bare map check_unsupported].
  - intros _. cbn [try value_tag]. apply contains_lists in HN. rewrite HN. reflexivity.
  - intros H. apply try_okE in H as (v & E & _). now apply Hx in E.
  - intros H. apply try_okE in H as (v & -> & H). cbn [try].
    destruct (value_tag v); [|auto]. destruct (negb _); auto. destruct (_ =? _); auto.
Qed.

Lemma update_cont ds a b : Cont a b -> forall rs rs' u,
  update_page_loop ds (bare a) rs = Val (rs', Ok u) -> update_page_loop ds (bare b) rs = Val (rs', Ok u).
Proof.
  induction 1 as [|x us Hx|x a b HC IH]; intros rs rs' u; cbn [bare map update_page_loop].
  - intros [= <- <-]. reflexivity.
  - intros H. apply bind_val in H as (r & -> & H). destruct r as [v|]; [now destruct (Hx v)|discriminate].
  - intros H. apply bind_val in H as (r & -> & H). cbn [bind]. destruct r as [v|]; [|discriminate].
    destruct v; auto; destruct (set_background _ _ _) as [ctx [w|e]]; auto.
Qed.

Lemma try_mono {A B E} (m : M (result A E)) (k l : A -> M (result B E)) b :
  (forall a, k a = Val (Ok b) -> l a = Val (Ok b)) -> try m k = Val (Ok b) -> try m l = Val (Ok b).
Proof. destruct m as [[a|e]| |]; cbn [try]; auto. Qed.

Lemma graphics_cont md d a b : Cont a b -> forall ctx r r',
  render_graphics_loop md d (bare a) ctx r = Val (Ok r') -> render_graphics_loop md d (bare b) ctx r = Val (Ok r').
Proof.
  induction 1 as [|x us Hx|x a b HC IH]; intros ctx r r'; cbn [bare map render_graphics_loop].
  - intros [= <-]. reflexivity.
  - intros H. apply try_okE in H as (v & -> & H). now destruct (Hx v).
  - apply try_mono. intros v. destruct v; auto.
    + destruct (set_background _ _ _) as [c' o]. apply try_mono; intros ?; apply IH.
    + destruct (set_foreground _ _ _) as [c' o]. apply try_mono; intros ?; apply IH.
    + destruct (set_foreground _ _ _) as [c' o]. apply try_mono; intros ?. apply try_mono; intros ?; apply IH.
    + destruct p as [[[x0 y0] gid]|]; apply try_mono; intros ?; apply try_mono; intros ?; apply IH.
Qed.

(** States after reading [a] and [b]. *)
Inductive ContEnd (po : bool) : PageState -> Outcomes -> PageState -> Outcomes -> Prop :=
| Ce_more s a b : Cont a b -> ContEnd po s a s b
| Ce_end : ContEnd po (done po) [] (new_page po) ys.

Lemma rtr_cont md d ds po a b : Cont a b -> forall rs spans lb e,
  a_rtr md d ds po a rs spans lb = Val e -> a_res e = Ok tt ->
  exists e', a_rtr md d ds po b rs spans lb = Val e' /\ a_rs e' = a_rs e /\ a_spans e' = a_spans e
    /\ a_res e' = Ok tt /\ ContEnd po (a_state e) (a_rest e) (a_state e') (a_rest e').
Proof.
  induction 1 as [|x us Hx|x a b HC IH]; intros rs spans lb e H HR; cbn [a_rtr] in *.
  - injection H as <-. cbn [bind]. eexists. split; [reflexivity|]. cbn. splits; auto. constructor.
  - apply bind_val in H as (r & -> & H). destruct r as [v|er]; [now destruct (Hx v)|].
    injection H as <-. discriminate.
  - apply bind_val in H as (r & -> & H). cbn [bind]. destruct r as [v|er].
    2:{ injection H as <-. discriminate. }
    assert (HB : forall rs' st er sp P, Val (mkA rs' st a sp (Err er)) = Val e -> P).
    { intros rs' st er sp P E. injection E as <-. discriminate. }
    destruct v; try (eapply IH; eauto; fail); try (eapply HB; eauto; fail).
    + destruct (set_foreground _ _ _) as [ctx [u|er]]; [eapply IH; eauto|eapply HB; eauto].
    + destruct (is_charb c); [|eapply HB; eauto].
      destruct (chk8 md (rs_span rs + 1)) as [sn| |]; cbn [bind] in *; try discriminate. eapply IH; eauto.
    + destruct j as [[]|]; try (eapply HB; eauto; fail); eapply IH; eauto.
    + destruct j as [[]|]; try (eapply HB; eauto; fail); cbv zeta in *; destruct (negb _); eapply IH; eauto.
    + cbv zeta in *. match type of H with (if ?c then _ else _) = _ => destruct c end; [eapply HB; eauto|].
      cbn [rs_line set_line_spacing] in *.
      destruct (chk8 md (rs_line rs + 1)) as [ln| |]; cbn [bind] in *; try discriminate. eapply IH; eauto.
    + injection H as <-. eexists. split; [reflexivity|]. cbn. splits; auto. now constructor.
    + destruct (_ && _); [eapply HB; eauto|eapply IH; eauto].
    + destruct (chk8 md (rs_span rs + 1)) as [sn| |]; cbn [bind] in *; try discriminate. eapply IH; eauto.
    + destruct (update_text_rectangle md d ds r) as [[q|]| |] eqn:EU; cbn [bind] in *; try discriminate.
      * injection H as <-. eexists. split; [reflexivity|]. cbn. splits; auto. now constructor.
      * eapply HB; eauto.
Qed.

Definition ContAP (p p2 : AP) : Prop :=
  ap_rs p2 = ap_rs p
  /\ ((ap_state p2 = ap_state p /\ Cont (ap_rest p) (ap_rest p2))
      \/ (exists po, ap_state p = done po /\ ap_state p2 = new_page po /\ ap_rest p = [] /\ ap_rest p2 = ys)).

Lemma text_rect_cont md d p p2 raster p' r' :
  ap_rs p2 = ap_rs p -> Cont (ap_rest p) (ap_rest p2) ->
  a_text_rect md d p raster = Val (p', Ok r') ->
  exists p2', a_text_rect md d p2 raster = Val (p2', Ok r') /\ ContAP p' p2'.
Proof.
  intros HE HC H. unfold a_text_rect in *. apply bind_val in H as (e & HR & H).
  destruct (a_res e) as [[]|] eqn:EO; [|discriminate].
  destruct (rtr_cont _ _ _ _ _ _ HC _ _ _ _ HR EO) as (e' & H1 & H2 & H3 & H4 & H5).
  rewrite HE, H1. cbn [bind]. rewrite H4, H3. apply bind_val in H as (r & HT & H). rewrite HT. cbn [bind].
  injection H as <- <-. eexists. split; [reflexivity|]. unfold ContAP. cbn. split; auto.
  inversion H5; subst; eauto 8.
Qed.

Lemma page_loop_cont md d fuel : forall n p p2 raster p' r',
  ContAP p p2 -> a_page_loop md d fuel n p raster = Val (p', Ok r') ->
  exists p2', a_page_loop md d fuel n p2 raster = Val (p2', Ok r') /\ ContAP p' p2'.
Proof.
  induction fuel as [|f IH]; intros n p p2 raster p' r' HC H; cbn [a_page_loop] in H; [discriminate|].
  pose proof HC as (HE & HS).
  assert (Hstop : ap_state p <> PsOn false -> ap_state p2 <> PsOn false ->
     exists p2', a_page_loop md d (S f) n p2 raster = Val (p2', Ok r') /\ ContAP p' p2').
  { intros N1 N2. exists p2. rewrite a_page_loop_stop by auto.
    assert (Val (p, Ok raster) = Val (p', @Ok _ SyntaxError r')) as E.
    { destruct (ap_state p) as [[]|[]|]; auto. congruence. }
    injection E as <- <-. auto. }
  destruct HS as [[ES HC']|(po & E1 & E2 & E3 & E4)].
  2:{ apply Hstop; [rewrite E1; apply done_on|rewrite E2; apply new_page_on]. }
  destruct (ap_state p) as [[]|[]|] eqn:EP; try (apply Hstop; rewrite ?ES; discriminate).
  cbn [a_page_loop]. rewrite ES. apply bind_val in H as (g & HG & H). destruct g as [r1|e]; [|discriminate].
  rewrite HE, (graphics_cont _ _ _ _ HC' _ _ _ HG). cbn [bind].
  apply bind_val in H as ([p1 r2] & HT & H). destruct r2 as [r2|e]; [|discriminate].
  destruct (text_rect_cont _ _ _ _ _ _ _ HE HC' HT) as (p3 & HT' & HC3). rewrite HT'. cbn [bind].
  cbv zeta in *. destruct (_ <? _); [discriminate|]. eapply IH; eauto.
Qed.

Lemma on_page_cont md d p p2 p' P : Lists d TNp ->
  ap_rs p2 = ap_rs p -> Cont (ap_rest p) (ap_rest p2) ->
  a_on_page md d p = Val (p', Ok P) ->
  exists p2', a_on_page md d p2 = Val (p2', Ok P) /\ ContAP p' p2'.
Proof.
  intros HN HE HC H. unfold a_on_page in *. apply bind_val in H as (c & HK & H). destruct c as [c|]; [|discriminate].
  rewrite (check_cont _ _ _ _ HC HN HK). cbn [bind].
  apply bind_val in H as ([rs u] & HU & H). destruct u as [u|]; [|discriminate].
  rewrite HE. unfold update_page_state in *. rewrite (update_cont _ _ _ HC _ _ _ HU). cbn [bind].
  apply bind_val in H as ([p1 r] & HL & H). destruct r as [r|]; [|discriminate]. injection H as <- <-.
  eapply page_loop_cont with (p2 := mkAP rs (PsOn false) (ap_rest p2)) in HL.
  2:{ unfold ContAP. cbn. split; auto. }
  destruct HL as (p2' & HL & HC'). rewrite HL. cbn [bind]. exists p2'. split; auto.
  destruct HC' as [-> _]. reflexivity.
Qed.

Lemma take_cont md d : Lists d TNp -> forall n p p2 ps,
  ContAP p p2 \/ ap_state p = PsDone -> a_take md d n p = Val (map Ok ps) ->
  a_take md d (List.length ps) p2 = Val (map Ok ps).
Proof.
  intros HN. induction n as [|n IH]; intros p p2 ps HC H; cbn [a_take] in H.
  { injection H as H. destruct ps; [reflexivity|discriminate]. }
  apply bind_val in H as ([o p'] & HX & H). destruct o as [x|].
  2:{ injection H as H. destruct ps; [reflexivity|discriminate]. }
  apply bind_val in H as (l & HL & H). injection H as H. destruct ps as [|P ps]; [discriminate|].
  cbn [map] in H. injection H as -> ->. cbn [List.length a_take].
  assert (exists p2', a_next md d p2 = Val (Some (Ok P), p2') /\ (ContAP p' p2' \/ ap_state p' = PsDone)) as (p2' & HX2 & HC').
  { destruct HC as [(HE & HS)|HD]; [|unfold a_next in HX; rewrite HD in HX; discriminate]. unfold a_next in *. destruct HS as [[ES HC']|(po & E1 & E2 & E3 & E4)].
    - rewrite ES. destruct (ap_state p) as [b|b|] eqn:EP; [| |discriminate].
      + apply bind_val in HX as ([p1 r] & HP & HX). cbn [fst snd] in HX. injection HX as -> ->.
        destruct (on_page_cont md d p p2 p' P HN HE HC' HP) as (p2' & H2 & HC2). rewrite H2. cbn. eauto 6.
      + injection HX as <- <-. rewrite HE. eexists. split; [reflexivity|]. left. unfold ContAP. cbn. auto.
    - rewrite E1 in HX. destruct po; cbn [done] in HX; [|discriminate].
      rewrite E2. cbn [new_page]. injection HX as <- <-. rewrite HE. eexists. split; [reflexivity|].
      right. reflexivity. }
  rewrite HX2. cbn [bind]. rewrite (IH _ _ _ HC' HL). reflexivity.
Qed.

End More.

(** ** Tokens of a longer string *)

Lemma Token_more t r x : Token t r -> r <> [] -> Token t (r ++ x).
Proof.
  intros H Hr. destruct H as [r|r|b r Hb|b r Hb Ho Hn|r Hs|t r Ht Hp Ha].
  - constructor.
  - constructor.
  - now constructor.
  - constructor; auto.
    + destruct Ho as [->|[q ->]]; [congruence|]. right. exists (q ++ x). reflexivity.
    + intros E. specialize (Hn E). congruence.
  - constructor. intros q E. destruct r as [|c r]; [congruence|]. cbn in E. injection E as -> _. now apply (Hs r).
  - constructor; auto. destruct Ha as [->|(c & q & -> & Hc)]; [congruence|]. right. exists c, (q ++ x). auto.
Qed.

Lemma denotes_ok_more t r v x : Token t r -> TokenDenotes t (Ok v) -> Token t (r ++ 91 :: x).
Proof.
  intros H Hd. destruct r as [|c r]; [|now apply Token_more].
  cbn [app]. destruct H as [r|r|b r Hb|b r Hb Ho Hn|r Hs|t r Ht Hp Ha]; try (constructor; auto; fail).
  - exfalso. inversion Hd as [E|E|b' v' Hb' Hv E|b' Hb'|b' Hb'|b' Hb'| |t' Ht' Hp' HF E|]; subst.
    + inversion Hb as [|? ? [? ?]]; congruence.
    + unfold plain in Hb. rewrite Forall_forall in Hb. destruct (Hb 93); [|congruence].
      apply in_or_app. right. now left.
    + inversion Hp' as [|? ? [? ?]]; congruence.
  - constructor. intros q E. discriminate.
  - constructor; auto. right. exists 91, x. unfold bracket. auto.
Qed.

Lemma Tokens_np x ts : Tokens x ts -> Tokens (lit "[np]" ++ x) (lit "[np]" :: ts).
Proof.
  intros H. constructor; auto. change (lit "[np]") with (91 :: lit "np" ++ [93]). constructor.
  repeat constructor; discriminate.
Qed.

Lemma try_np : try_from (lit "[np]") = Val (Ok VNewPage).
Proof. vm_compute. reflexivity. Qed.

Lemma cont_np a ts x xs : Tokens a ts -> Tokens x xs -> exists us, Tokens (a ++ lit "[np]" ++ x) us
  /\ Cont (map try_from xs) (map try_from ts) (map try_from us).
Proof.
  intros H HX. induction H as [|t rest ts HTk HT (us & HU & HC)].
  - exists (lit "[np]" :: xs). split; [now apply Tokens_np|].
    cbn [map]. rewrite try_np. constructor.
  - destruct rest as [|c rest].
    + assert (ts = []) as -> by (inversion HT as [|t' r' ts' HTk' HT' E]; auto;
        subst; destruct t'; [inversion HTk'; congruence|discriminate]).
      rewrite app_nil_r.
      assert ((exists v, try_from t = Val (Ok v)) \/ forall v, try_from t <> Val (Ok v)) as [[v Hv]|Hb].
      { destruct (try_from t) as [[v|e]| |]; [left; eauto|right; discriminate..]. }
      * exists (t :: us). split.
        -- cbn [app] in HU. constructor; auto.
           assert (TokenDenotes t (Ok v)) as Hd.
           { destruct (try_from_token t [] HTk) as [[_ E]|[_ (res & E & Hd)]]; rewrite E in Hv; try discriminate.
             injection Hv as ->. exact Hd. }
           change (lit "[np]" ++ x) with ([] ++ 91 :: (lit "np]" ++ x)).
           eapply denotes_ok_more; eauto.
        -- cbn [map]. apply Ct_cons. exact HC.
      * destruct (Tokens_exists (t ++ lit "[np]" ++ x)) as (us' & HU'). exists us'. split; auto.
        cbn [map]. now apply Ct_bad.
    + exists (t :: us). split.
      * rewrite <- app_assoc. constructor; auto. apply Token_more; auto. discriminate.
      * cbn [map]. now apply Ct_cons.
Qed.

Lemma pages_cont md d ms1 ms2 n ps : Lists d TNp ->
  pages_take md d n (pages_new d ms1) = Val (map Ok ps) ->
  pages_take md d (List.length ps) (pages_new d (ms1 ++ lit "[np]" ++ ms2)) = Val (map Ok ps).
Proof.
  intros HN H. destruct (Tokens_exists ms1) as (ts & HT). destruct (Tokens_exists ms2) as (xs & HX).
  destruct (cont_np ms1 ts ms2 xs HT HX) as (us & HU & HC).
  rewrite (take_start md d n ms1 _ (Reads_new _ _ HT)) in H.
  rewrite (take_start md d _ _ _ (Reads_new _ _ HU)).
  eapply (take_cont (map try_from xs)); eauto. left. unfold ContAP. cbn. auto.
Qed.
