(** Reached iterator states, progress and repeated errors. *)

From Coq Require Import String.
From Verif Require Import Base Str Multi Color Raster Font Graphic Config Sign Render
  Spec_Multi Spec_Render Proofs_Str Proofs_Split Proofs_Norm Proofs_Iter Proofs_Machine Proofs_Pages.
Open Scope list_scope.

Inductive AReach (md : mode) (d : Dms) (xs : Outcomes) : AP -> Prop :=
| Ar_start : AReach md d xs (a_start d xs)
| Ar_step p r p' : AReach md d xs p -> a_next md d p = Val (Some r, p') -> AReach md d xs p'.

Lemma reach_rel md d ms xs p : Reads (ms_new ms) xs -> Reaches md d ms p ->
  exists a, PRel d p a /\ AReach md d xs a.
Proof.
  intros HX H. induction H as [|p r p' H (a & HP & HA) HN].
  - exists (a_start d xs). split; [now apply start_rel|constructor].
  - pose proof (next_rel md d p a HP) as HR. rewrite HN in HR.
    destruct (a_next md d a) as [[o a']| |] eqn:EN; cbn in HR; try contradiction.
    destruct HR as [<- HP']. exists a'. split; auto. econstructor; eauto.
Qed.

Lemma unread_tokens p s ts : Unread p s -> Tokens s ts -> Reads (p_values p) (map try_from ts).
Proof. intros (a & Hs & Ho) HT. exists ts. split; auto. exists a, s. splits; auto. Qed.

Lemma denotes_map ts rs : Forall2 TokenDenotes ts rs -> map try_from ts = map Val rs.
Proof.
  induction 1 as [|t r ts rs Hd HD IH]; cbn [map]; auto. rewrite (TokenDenotes_try _ _ Hd). now rewrite IH.
Qed.

Lemma unread_meaning p s rs : Unread p s -> Meaning s rs -> Reads (p_values p) (map Val rs).
Proof. intros HU (ts & HT & HD). rewrite <- (denotes_map _ _ HD). eapply unread_tokens; eauto. Qed.

(** Every reached state has an unread part. *)
Lemma reach_unread md d ms p : Reaches md d ms p -> exists s, Unread p s.
Proof.
  intros H. destruct (Reads_exists ms) as (xs & HX). destruct (reach_rel _ _ _ _ _ HX H) as (a & (_ & _ & _ & HR) & _).
  destruct HR as (ts & (u & v & E1 & E2 & _) & _). exists v, u. auto.
Qed.

(** What is left to read is always a part of the message. *)
Definition suffix {A} (a b : list A) : Prop := exists c, b = c ++ a.
Lemma suffix_refl {A} (a : list A) : suffix a a.
Proof. now exists []. Qed.
Lemma suffix_trans {A} (a b c : list A) : suffix a b -> suffix b c -> suffix a c.
Proof. intros [u ->] [v ->]. exists (v ++ u). now rewrite app_assoc. Qed.
Lemma suffix_cons {A} (x : A) a b : suffix a b -> suffix a (x :: b).
Proof. intros [u ->]. now exists (x :: u). Qed.
Lemma suffix_len {A} (a b : list A) : suffix a b -> (List.length a <= List.length b)%nat.
Proof. intros [u ->]. rewrite app_length. lia. Qed.
Lemma suffix_in {A} (x : A) a b : suffix a b -> In x a -> In x b.
Proof. intros [u ->] H. apply in_or_app. auto. Qed.

Lemma a_rtr_suffix md d ds po xs : forall rs spans lb e,
  a_rtr md d ds po xs rs spans lb = Val e -> suffix (a_rest e) xs.
Proof.
  induction xs as [|x xs IH]; intros rs spans lb e H; cbn [a_rtr] in H.
  { injection H as <-. apply suffix_refl. }
  destruct x as [[v|er]| |]; cbn [bind] in H; try discriminate.
  2:{ injection H as <-. apply suffix_cons, suffix_refl. }
  assert (HS : forall rs' sp b, a_rtr md d ds po xs rs' sp b = Val e -> suffix (a_rest e) (Val (Ok v) :: xs)).
  { intros rs' sp b HE. apply suffix_cons. eauto. }
  assert (HB : forall rs' st er, Val (mkA rs' st xs spans er) = Val e -> suffix (a_rest e) (Val (Ok v) :: xs)).
  { intros rs' st er E. injection E as <-. cbn. apply suffix_cons, suffix_refl. }
  destruct v; try (eapply HS; exact H); try (eapply HB; exact H).
  - destruct (set_foreground _ _ _) as [ctx [u|er]]; [eapply HS|eapply HB]; exact H.
  - destruct (is_charb c); [|eapply HB; exact H].
    destruct (chk8 md (rs_span rs + 1)) as [sn| |]; cbn [bind] in H; try discriminate. eapply HS; exact H.
  - destruct j as [[]|]; try (eapply HB; exact H); eapply HS; exact H.
  - destruct j as [[]|]; try (eapply HB; exact H); cbv zeta in H; destruct (negb _); eapply HS; exact H.
  - cbv zeta in H. match type of H with (if ?c then _ else _) = _ => destruct c end; [eapply HB; exact H|].
    cbn [rs_line set_line_spacing] in H.
    destruct (chk8 md (rs_line rs + 1)) as [ln| |]; cbn [bind] in H; try discriminate. eapply HS; exact H.
  - destruct (_ && _); [eapply HB|eapply HS]; exact H.
  - destruct (chk8 md (rs_span rs + 1)) as [sn| |]; cbn [bind] in H; try discriminate. eapply HS; exact H.
  - destruct (update_text_rectangle md d ds r) as [[q|]| |] eqn:EU; cbn [bind] in H; try discriminate;
      eapply HB; exact H.
Qed.

(** Without a text rectangle left, the rectangle in force stays. *)
Definition rectless (xs : Outcomes) : Prop := forall r, ~ In (Val (Ok (VTextRectangle r))) xs.

Lemma a_rtr_rect md d ds po xs : rectless xs -> forall rs spans lb e,
  a_rtr md d ds po xs rs spans lb = Val e -> rs_rect (a_rs e) = rs_rect rs.
Proof.
  intros HN. induction xs as [|x xs IH]; intros rs spans lb e H; cbn [a_rtr] in H.
  { injection H as <-. reflexivity. }
  assert (rectless xs) as HN' by (intros r HI; apply (HN r); now right).
  specialize (IH HN').
  destruct x as [[v|er]| |]; cbn [bind] in H; try discriminate.
  2:{ injection H as <-. reflexivity. }
  assert (HB : forall rs' st er, rs_rect rs' = rs_rect rs -> Val (mkA rs' st xs spans er) = Val e -> rs_rect (a_rs e) = rs_rect rs).
  { intros rs' st er Er E. injection E as <-. auto. }
  destruct v; try (apply IH in H; exact H); try (eapply HB; [|exact H]; reflexivity).
  - destruct (set_foreground _ _ _) as [ctx [u|er]]; [apply IH in H; exact H|eapply HB; [|exact H]; reflexivity].
  - destruct (is_charb c); [|eapply HB; [|exact H]; reflexivity].
    destruct (chk8 md (rs_span rs + 1)) as [sn| |]; cbn [bind] in H; try discriminate. apply IH in H; exact H.
  - destruct j as [[]|]; try (eapply HB; [|exact H]; reflexivity); apply IH in H; exact H.
  - destruct j as [[]|]; try (eapply HB; [|exact H]; reflexivity); cbv zeta in H; destruct (negb _); apply IH in H; exact H.
  - cbv zeta in H. match type of H with (if ?c then _ else _) = _ => destruct c end; [eapply HB; [|exact H]; reflexivity|].
    cbn [rs_line set_line_spacing] in H.
    destruct (chk8 md (rs_line rs + 1)) as [ln| |]; cbn [bind] in H; try discriminate. apply IH in H; exact H.
  - destruct (_ && _); [eapply HB; [|exact H]; reflexivity|apply IH in H; exact H].
  - destruct (chk8 md (rs_span rs + 1)) as [sn| |]; cbn [bind] in H; try discriminate. apply IH in H; exact H.
  - exfalso. apply (HN r). now left.
Qed.

(** ** Progress *)

Definition weight (s : PageState) : nat :=
  match s with PsDone => 0 | PsOff false => 1 | PsOn _ => 2 | PsOff true => 3 end.
Definition mu (p : AP) : nat := 3 * List.length (ap_rest p) + weight (ap_state p).

Lemma page_loop_progress md d fuel : forall n p raster p' r,
  ap_state p = PsOn false -> a_page_loop md d fuel n p raster = Val (p', r) ->
  (p' = p /\ exists e, r = Err e
     /\ render_graphics_loop md d (bare (ap_rest p)) (rs_ctx (ap_rs p)) raster = Val (Err e))
  \/ (mu p' < mu p /\ suffix (ap_rest p') (ap_rest p))%nat.
Proof.
  induction fuel as [|f IH]; intros n p raster p' r Hs H; cbn [a_page_loop] in H; [discriminate|].
  rewrite Hs in H. apply bind_val in H as (g & HG & H).
  destruct g as [r1|e]; [|injection H as <- <-; left; eauto].
  right. apply bind_val in H as ([p1 r2] & HT & H).
  assert ((mu p1 < mu p /\ suffix (ap_rest p1) (ap_rest p))%nat) as HM.
  { unfold a_text_rect in HT. apply bind_val in HT as (e & HE & HT).
    pose proof (a_rtr_progress _ _ _ _ _ _ _ _ _ HE) as HPr. pose proof (a_rtr_suffix _ _ _ _ _ _ _ _ _ HE) as HSf.
    assert (p1 = mkAP (a_rs e) (a_state e) (a_rest e)) as ->.
    { destruct (a_res e); [|injection HT as <- _; auto].
      apply bind_val in HT as (r3 & HR & HT). injection HT as <- _. reflexivity. }
    split; auto. unfold mu. cbn [ap_rest ap_state]. rewrite Hs. cbn [weight].
    apply suffix_len in HSf. destruct HPr as [->|[[->| ->] HL]].
    - destruct (0 <? _); cbn; lia.
    - destruct (0 <? _); cbn; lia.
    - cbn. lia. }
  destruct r2 as [r2|e]; [|injection H as <- _; exact HM].
  cbv zeta in H. destruct (_ <? _); [injection H as <- _; exact HM|].
  destruct (ap_state p1) as [[]|[]|] eqn:ES;
    try (destruct f; [discriminate|]; rewrite a_page_loop_stop in H by (rewrite ES; discriminate);
         injection H as <- _; exact HM).
  apply IH in H; auto. destruct H as [[-> _]|[H HS]]; [exact HM|].
  split; [lia|]. eapply suffix_trans; [exact HS|apply HM].
Qed.

(** ** Idempotence of the page state update *)

Definition like (a b : RenderState) : Prop :=
  color_scheme (rs_ctx a) = color_scheme (rs_ctx b) /\ fg_default (rs_ctx a) = fg_default (rs_ctx b)
  /\ bg_default (rs_ctx a) = bg_default (rs_ctx b).

Lemma last_bg_like a b vs c : bg_default a = bg_default b -> last_bg a vs c = last_bg b vs c.
Proof. intros H. unfold last_bg. now rewrite H. Qed.

Lemma last_bg_cons ctx v vs c : last_bg ctx (v :: vs) c = last_bg ctx vs (last_bg ctx [v] c).
Proof. reflexivity. Qed.
Lemma last_times_cons ds v vs t : last_times ds (v :: vs) t = last_times ds vs (last_times ds [v] t).
Proof. reflexivity. Qed.

Lemma set_ctx_id rs : set_ctx rs (rs_ctx rs) = rs.
Proof. now destruct rs. Qed.

Lemma update_loop_run ds xs : forall rs rs' u,
  update_page_loop ds (bare xs) rs = Val (rs', u) ->
  exists vs, forall rs2, like rs rs2 ->
    update_page_loop ds (bare xs) rs2 =
      Val (with_page rs2 (last_bg (rs_ctx rs2) vs (bg_current (rs_ctx rs2)))
             (last_times ds vs (rs_on_time rs2, rs_off_time rs2)), u).
Proof.
  assert (HN : forall rs2, with_page rs2 (last_bg (rs_ctx rs2) [] (bg_current (rs_ctx rs2)))
                    (last_times ds [] (rs_on_time rs2, rs_off_time rs2)) = rs2)
    by (intros; apply with_page_eta).
  induction xs as [|x xs IH]; intros rs rs' u H; cbn [bare map update_page_loop] in *.
  { injection H as <- <-. exists []. intros rs2 _. now rewrite HN. }
  destruct x as [[v|e]| |]; cbn [bind] in *; try discriminate.
  2:{ injection H as <- <-. exists []. intros rs2 _. now rewrite HN. }
  assert (HG : forall f : RenderState -> RenderState, (forall rs1, like rs1 (f rs1)) ->
    (forall rs1, like rs rs1 -> f rs1 = with_page rs1 (last_bg (rs_ctx rs1) [v] (bg_current (rs_ctx rs1)))
                          (last_times ds [v] (rs_on_time rs1, rs_off_time rs1))) ->
    update_page_loop ds (bare xs) (f rs) = Val (rs', u) ->
    exists vs, forall rs2, like rs rs2 -> update_page_loop ds (bare xs) (f rs2) =
      Val (with_page rs2 (last_bg (rs_ctx rs2) vs (bg_current (rs_ctx rs2)))
             (last_times ds vs (rs_on_time rs2, rs_off_time rs2)), u)).
  { intros f Hf Hv HE. destruct (IH _ _ _ HE) as (vs & HV). exists (v :: vs). intros rs2 HL.
    rewrite HV.
    - rewrite (Hv rs2 HL). rewrite with_page_twice. rewrite (last_bg_cons _ v vs), (last_times_cons _ v vs).
      destruct (last_times ds [v] _) as [t1 t2]. cbn [with_page set_times set_ctx rs_ctx bg_current rs_on_time rs_off_time fst snd].
      reflexivity.
    - destruct (Hf rs) as (A1 & A2 & A3), (Hf rs2) as (B1 & B2 & B3), HL as (C1 & C2 & C3).
      unfold like. splits; congruence. }
  assert (HID : update_page_loop ds (bare xs) rs = Val (rs', u) ->
     (forall c t, last_bg c [v] t = t) -> (forall t, last_times ds [v] t = t) ->
     exists vs, forall rs2, like rs rs2 -> update_page_loop ds (bare xs) rs2 =
      Val (with_page rs2 (last_bg (rs_ctx rs2) vs (bg_current (rs_ctx rs2)))
             (last_times ds vs (rs_on_time rs2, rs_off_time rs2)), u)).
  { intros HE Hb Ht. apply (HG (fun r => r)); auto.
    - intros rs1. unfold like. auto.
    - intros rs1 _. rewrite Hb, Ht. symmetry. apply with_page_eta. }
  assert (HBG : forall o val, (v = VColorBackground o \/ v = VPageBackground o) ->
     (let '(ctx, res) := set_background (rs_ctx rs) o val in
      match res with
      | Ok _ => update_page_loop ds (bare xs) (set_ctx rs ctx)
      | Err e => Val (set_ctx rs ctx, Err e) end) = Val (rs', u) ->
     exists vs, forall rs2, like rs rs2 ->
     (let '(ctx, res) := set_background (rs_ctx rs2) o val in
      match res with
      | Ok _ => update_page_loop ds (bare xs) (set_ctx rs2 ctx)
      | Err e => Val (set_ctx rs2 ctx, Err e) end) =
      Val (with_page rs2 (last_bg (rs_ctx rs2) vs (bg_current (rs_ctx rs2)))
             (last_times ds vs (rs_on_time rs2, rs_off_time rs2)), u)).
  { intros o val Hv HE. unfold set_background in *.
    destruct o as [c|].
    - destruct (ctx_rgb (rs_ctx rs) c) eqn:EC.
      + destruct (HG (fun r => set_ctx r (mkCtx (color_scheme (rs_ctx r)) (fg_default (rs_ctx r))
                        (fg_current (rs_ctx r)) (bg_default (rs_ctx r)) c))) as (vs & HV).
        * intros rs1. unfold like. cbn. auto.
        * intros rs1 _. destruct Hv as [-> | ->]; destruct rs1 as [[]]; reflexivity.
        * exact HE.
        * exists vs. intros rs2 HL. destruct HL as (C1 & C2 & C3).
          rewrite <- (ctx_rgb_frame (rs_ctx rs) (rs_ctx rs2)) by auto. rewrite EC.
          apply HV. unfold like. auto.
      + injection HE as <- <-. exists []. intros rs2 HL. destruct HL as (C1 & C2 & C3).
        rewrite <- (ctx_rgb_frame (rs_ctx rs) (rs_ctx rs2)) by auto. rewrite EC. rewrite HN. now rewrite set_ctx_id.
    - destruct (HG (fun r => set_ctx r (mkCtx (color_scheme (rs_ctx r)) (fg_default (rs_ctx r))
                        (fg_current (rs_ctx r)) (bg_default (rs_ctx r)) (color_of_rgb (bg_default (rs_ctx r)))))) as (vs & HV).
      * intros rs1. unfold like. cbn. auto.
      * intros rs1 _. destruct Hv as [-> | ->]; destruct rs1 as [[]]; reflexivity.
      * exact HE.
      * exists vs. intros rs2 HL. apply HV; auto. }
  destruct v; try (apply HID; [exact H|reflexivity|reflexivity]).
  - destruct (HBG c (VColorBackground c)) as (vs & HV); auto; exists vs; exact HV.
  - injection H as <- <-. exists []. intros rs2 _. now rewrite HN.
  - destruct (HBG c (VPageBackground c)) as (vs & HV); auto; exists vs; exact HV.
  - match type of H with update_page_loop _ _ (set_times _ ?a ?b) = _ =>
      apply (HG (fun r => set_times r a b)); auto end.
    + intros rs1. unfold like. cbn. auto.
    + intros rs1 _. destruct rs1 as [[]]. reflexivity.
Qed.

Lemma last_bg_idem ctx vs c : last_bg ctx vs (last_bg ctx vs c) = last_bg ctx vs c.
Proof.
  assert (forall vs, (forall c, last_bg ctx vs c = c) \/ exists k, forall c, last_bg ctx vs c = k) as HC.
  { intros ws. induction ws as [|w ws IH] using rev_ind; [left; reflexivity|].
    assert (HA : forall c, last_bg ctx (ws ++ [w]) c = last_bg ctx [w] (last_bg ctx ws c))
      by (intros; unfold last_bg; now rewrite fold_left_app).
    assert (HK : (forall c, last_bg ctx [w] c = c) \/ exists k, forall c, last_bg ctx [w] c = k).
    { destruct w; try (left; reflexivity); (destruct c0 as [k|]; right; [exists k|exists (color_of_rgb (bg_default ctx))]; reflexivity). }
    destruct HK as [HK|[k HK]].
    - destruct IH as [IH|[k IH]]; [left|right; exists k]; intros d0; now rewrite HA, HK, IH.
    - right. exists k. intros d0. now rewrite HA, HK. }
  destruct (HC vs) as [H|[k H]]; rewrite !H; auto.
Qed.

Lemma last_times_idem ds vs t : last_times ds vs (last_times ds vs t) = last_times ds vs t.
Proof.
  assert (forall vs, (forall t, last_times ds vs t = t) \/ exists k, forall t, last_times ds vs t = k) as HC.
  { intros ws. induction ws as [|w ws IH] using rev_ind; [left; reflexivity|].
    assert (HA : forall t, last_times ds (ws ++ [w]) t = last_times ds [w] (last_times ds ws t))
      by (intros; unfold last_times; now rewrite fold_left_app).
    assert (HK : (forall t, last_times ds [w] t = t) \/ exists k, forall t, last_times ds [w] t = k).
    { destruct w; try (left; reflexivity). right. eexists. intros t'. unfold last_times. cbn. reflexivity. }
    destruct HK as [HK|[k HK]].
    - destruct IH as [IH|[k IH]]; [left|right; exists k]; intros d0; now rewrite HA, HK, IH.
    - right. exists k. intros d0. now rewrite HA, HK. }
  destruct (HC vs) as [H|[k H]]; rewrite !H; auto.
Qed.

Lemma page_reset_with d rs b t :
  page_reset d (with_page (page_reset d rs) b t) = with_page (page_reset d rs) b t.
Proof. destruct rs as [[]]. reflexivity. Qed.

Lemma with_page_run d ds vs rs b t : b = last_bg (rs_ctx rs) vs (bg_current (rs_ctx rs)) ->
  t = last_times ds vs (rs_on_time rs, rs_off_time rs) -> rs = page_reset d rs ->
  let rs' := with_page rs b t in
  with_page rs' (last_bg (rs_ctx rs') vs (bg_current (rs_ctx rs')))
    (last_times ds vs (rs_on_time rs', rs_off_time rs')) = rs'.
Proof.
  intros Hb Ht Hr rs'. unfold rs'. rewrite with_page_twice.
  assert (E1 : bg_current (rs_ctx (with_page rs b t)) = b) by reflexivity.
  assert (E2 : (rs_on_time (with_page rs b t), rs_off_time (with_page rs b t)) = t) by (destruct t; reflexivity).
  rewrite E1, E2. rewrite (last_bg_like _ (rs_ctx rs)) by reflexivity.
  rewrite Hb at 1. rewrite last_bg_idem, <- Hb. rewrite Ht at 1. now rewrite last_times_idem, <- Ht.
Qed.

Lemma update_state_idem d xs rs rs' u :
  update_page_state (rs_new d) (bare xs) rs = Val (rs', u) ->
  update_page_state (rs_new d) (bare xs) rs' = Val (rs', u).
Proof.
  intros H. change (update_page_loop (rs_new d) (bare xs) (page_reset d rs) = Val (rs', u)) in H.
  change (update_page_loop (rs_new d) (bare xs) (page_reset d rs') = Val (rs', u)).
  destruct (update_loop_run _ _ _ _ _ H) as (vs & HV).
  rewrite HV in H by (unfold like; auto). injection H as H. subst rs'.
  rewrite page_reset_with. rewrite HV by (unfold like; auto).
  rewrite (with_page_run d); auto; try reflexivity.
Qed.

Lemma on_page_progress md d p p' r : (exists b, ap_state p = PsOn b) ->
  a_on_page md d p = Val (p', r) ->
  (mu p' < mu p /\ suffix (ap_rest p') (ap_rest p))%nat
  \/ (exists e, r = Err e /\ (exists b, ap_state p' = PsOn b) /\ a_on_page md d p' = Val (p', Err e)
        /\ ap_rest p' = ap_rest p).
Proof.
  intros [b Hs] H. pose proof H as H0. unfold a_on_page in H. apply bind_val in H as (c & HC & H).
  destruct c as [c|e]; [|injection H as <- <-; right; exists e; splits; eauto].
  apply bind_val in H as ([rs u] & HU & H).
  destruct u as [u|e].
  - apply bind_val in H as ([p1 r1] & HL & H).
    assert (p' = p1 /\ (forall e, r1 = Err e -> r = Err e)) as [-> HR].
    { destruct r1; injection H as <- <-; split; auto; congruence. }
    pose proof HL as HL0. apply page_loop_progress in HL; auto. cbn [ap_rest ap_rs] in HL.
    destruct HL as [(-> & e & -> & HG)|[HM HSf]].
    + right. exists e. splits; auto; [now exists false|].
      unfold a_on_page. cbn [ap_rest ap_rs]. rewrite HC. cbn [bind].
      rewrite (update_state_idem _ _ _ _ _ HU). cbn [bind]. rewrite HL0. reflexivity.
    + left. unfold mu in *. cbn [ap_rest ap_state weight] in *. rewrite Hs. cbn [weight]. auto.
  - injection H as <- <-. right. exists e. splits; auto; [now exists b|].
    unfold a_on_page. cbn [ap_rest ap_rs]. rewrite HC. cbn [bind].
    rewrite (update_state_idem _ _ _ _ _ HU). reflexivity.
Qed.

Lemma take_repeat md d p e : (exists b, ap_state p = PsOn b) -> a_on_page md d p = Val (p, Err e) ->
  forall k, a_take md d k p = Val (repeat (Err e) k).
Proof.
  intros [b Hs] H. induction k as [|k IH]; auto. cbn [a_take]. unfold a_next. rewrite Hs, H. cbn [bind fst snd].
  rewrite IH. reflexivity.
Qed.

(** The iteration ends, or does not return, or repeats one error for ever. *)
Lemma take_trichotomy md d p :
  (exists l, a_take md d (S (List.length l)) p = Val l /\ List.length l <= mu p)%nat
  \/ (exists n, (n <= S (mu p))%nat /\ (a_take md d n p = Panic \/ a_take md d n p = Hang))
  \/ (exists l e, (List.length l <= mu p)%nat
       /\ forall k, a_take md d (List.length l + k) p = Val (l ++ repeat (Err e) k)).
Proof.
  remember (mu p) as m eqn:Em. assert (mu p <= m)%nat as Hm by lia. clear Em. revert p Hm.
  induction m as [m IH] using lt_wf_ind. intros p Hm.
  assert (HG : forall x p', a_next md d p = Val (Some x, p') -> (mu p' < mu p)%nat ->
    (exists l, a_take md d (S (List.length l)) p = Val l /\ List.length l <= m)%nat
    \/ (exists n, (n <= S m)%nat /\ (a_take md d n p = Panic \/ a_take md d n p = Hang))
    \/ (exists l e, (List.length l <= m)%nat
       /\ forall k, a_take md d (List.length l + k) p = Val (l ++ repeat (Err e) k))).
  { intros x p' HN Hlt. destruct (IH (mu p') ltac:(lia) p' ltac:(lia)) as [(l & H1 & H2)|[(n & Hn & H)|(l & e & H1 & H2)]].
    - left. exists (x :: l). cbn [List.length a_take]. rewrite HN. cbn [bind].
      cbn [a_take] in H1. rewrite H1. cbn. split; auto. lia.
    - right; left. exists (S n). split; [lia|]. cbn [a_take]. rewrite HN. cbn [bind].
      destruct H as [-> | ->]; auto.
    - right; right. exists (x :: l), e. cbn [List.length]. split; [lia|]. intros k. cbn [Nat.add a_take]. rewrite HN.
      cbn [bind]. rewrite H2. reflexivity. }
  destruct (ap_state p) as [b|b|] eqn:ES.
  - destruct (a_next md d p) as [[o p']| |] eqn:EN.
    + unfold a_next in EN. rewrite ES in EN. apply bind_val in EN as ([p1 r] & HP & EN). cbn [fst snd] in EN.
      injection EN as <- <-.
      assert (HE : a_next md d p = Val (Some r, p1)) by (unfold a_next; now rewrite ES, HP).
      destruct (on_page_progress md d p p1 r ltac:(eauto) HP) as [[HM _]|(e & -> & Hs & HP' & _)]; [eauto|].
      assert (1 <= mu p)%nat by (unfold mu; rewrite ES; cbn; lia).
      right; right. exists [Err e], e. cbn [List.length]. split; [lia|]. intros k. cbn [Nat.add a_take]. rewrite HE.
      cbn [bind]. rewrite (take_repeat md d p1 e Hs HP' k). reflexivity.
    + right; left. exists 1%nat. split; [lia|]. cbn [a_take]. rewrite EN. auto.
    + right; left. exists 1%nat. split; [lia|]. cbn [a_take]. rewrite EN. auto.
  - eapply HG. { unfold a_next. rewrite ES. reflexivity. }
    unfold mu. cbn [ap_rest ap_state]. rewrite ES. destruct b; cbn; lia.
  - left. exists []. cbn [List.length a_take]. unfold a_next. rewrite ES. cbn. split; auto. lia.
Qed.
