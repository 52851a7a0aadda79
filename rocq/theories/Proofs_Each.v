(** The pages of a message one after the other: durations, backgrounds, and any
    property of their rasters. *)

From Coq Require Import String ZifyBool ZifyNat.
From Verif Require Import Base Str Multi Color Raster Font Graphic Config Sign Render
  Spec_Multi Spec_Color Spec_Font Spec_Tfon Spec_Graphic Spec_Sign Spec_Render Spec_Layout Spec_Page
  Proofs_Str Proofs_Font Proofs_Glyph Proofs_Iter Proofs_Color Proofs_Sign Proofs_Machine Proofs_Pages Proofs_Count Proofs_Render Proofs_Norm.
Open Scope list_scope.
Ltac Zify.zify_post_hook ::= Z.div_mod_to_equations.

Lemma in_force_app {A} (f : Value -> option A) a b : forall x,
  in_force f x (a ++ b) = in_force f (in_force f x a) b.
Proof. induction a as [|v a IH]; intros x; cbn; auto. Qed.

Lemma last_bg_force d vs : forall b,
  last_bg (dms_color_ctx d) vs b = in_force (says_bg d) b vs.
Proof.
  unfold last_bg. induction vs as [|v vs IH]; intros b; cbn [fold_left in_force]; auto. rewrite IH.
  destruct v; auto; destruct c; reflexivity.
Qed.

Lemma last_times_force d vs : forall t, last_times (rs_new d) vs t = in_force (says_times d) t vs.
Proof.
  unfold last_times. induction vs as [|v vs IH]; intros b; cbn [fold_left in_force]; auto. rewrite IH.
  destruct v; auto; destruct c; reflexivity.
Qed.

(** The parts of the state that last from page to page. *)
Definition kept (d : Dms) (before : list Value) (rs : RenderState) : Prop :=
  (rs_on_time rs, rs_off_time rs) = times_of d before
  /\ color_scheme (rs_ctx rs) = cfg_color_scheme (d_multi_cfg d)
  /\ fg_default (rs_ctx rs) = foreground_default_rgb d
  /\ bg_default (rs_ctx rs) = background_default_rgb d
  /\ bg_current (rs_ctx rs) = bg_of d before.

Lemma kept_new d : kept d [] (rs_new d).
Proof. unfold kept. splits; reflexivity. Qed.

Lemma kept_start d before rs pg : kept d before rs -> kept d (before ++ pg) (page_start d rs pg).
Proof.
  intros (H1 & H2 & H3 & H4 & H5).
  assert (B : last_bg (rs_ctx rs) pg (bg_current (rs_ctx rs)) = bg_of d (before ++ pg)).
  { unfold bg_of. rewrite in_force_app. fold (bg_of d before). rewrite <- H5, <- last_bg_force.
    unfold last_bg. rewrite H4. reflexivity. }
  assert (T : last_times (rs_new d) pg (rs_on_time rs, rs_off_time rs) = times_of d (before ++ pg)).
  { rewrite last_times_force, H1. unfold times_of. now rewrite in_force_app. }
  unfold kept, page_start. rewrite B, T. cbn. splits; auto. now rewrite <- surjective_pairing.
Qed.

Lemma kept_same d before a b : same_page a b -> kept d before a -> kept d before b.
Proof. intros (E1 & E2 & E3 & E4 & E5 & E6) (H1 & H2 & H3 & H4 & H5). unfold kept. splits; congruence. Qed.

Lemma kept_page d before pg rs : kept d (before ++ pg) rs -> background_rgb (rs_ctx rs) = page_background d before pg.
Proof.
  intros (_ & H2 & H3 & H4 & H5). unfold page_background, background_rgb. rewrite H4, H5. cbn [bg_current colors bg_default].
  rewrite (ctx_rgb_frame (rs_ctx rs) (colors d (default_fg d) (bg_of d (before ++ pg)))); auto.
Qed.

Definition all_of (P : Value -> Prop) (xs : Outcomes) : Prop := forall v, In (Val (Ok v)) xs -> P v.

Lemma last_rect_snoc d a r b : text_rects b = O ->
  last_rect d (a ++ VTextRectangle r :: b)
  = rect_on (sign_width_pixels (d_vms_cfg d)) (sign_height_pixels (d_vms_cfg d)) r.
Proof.
  intros H. unfold last_rect. rewrite in_force_app. cbn [in_force]. generalize (rect_on (sign_width_pixels (d_vms_cfg d))
    (sign_height_pixels (d_vms_cfg d)) r) as q. induction b as [|v b IH]; intros q; auto.
  destruct v; cbn [text_rects in_force] in *; auto. discriminate H.
Qed.

Lemma last_rect_none d vs : text_rects vs = O -> last_rect d vs = sign_rect d.
Proof.
  unfold last_rect. generalize (sign_rect d) as q.
  induction vs as [|v b IH]; intros q H; auto. destruct v; cbn [text_rects in_force] in *; auto. discriminate H.
Qed.

Lemma last_rect_is md d vs q : LastRect md d (rs_new d) (sign_rect d) vs q -> Forall value_ok vs -> q = last_rect d vs.
Proof.
  intros H HV. destruct H as [vs HN|a r b q HN HU].
  - symmetry. now apply last_rect_none.
  - rewrite last_rect_snoc by auto. apply Forall_app in HV as [_ HV]. inversion HV as [|? ? Hr _]; subst.
    destruct Hr as (Hx & Hy & Hw & Hh). unfold u16 in Hw, Hh. eapply update_rect_extends; eauto; lia.
Qed.

Section Each.
Variables (md : mode) (d : Dms) (Inv : list Value -> RenderState -> Prop) (P : Value -> Prop)
  (F : list Value -> list Value -> Raster rgb -> Prop).
Hypothesis Step : forall before p p' pic pg tail,
  Inv before (ap_rs p) -> ap_rest p = okv pg ++ tail -> no_page_break pg ->
  (tail = [] \/ exists r, tail = Val (Ok VNewPage) :: r) -> all_of P (ap_rest p) ->
  a_on_page md d p = Val (p', Ok pic) ->
  F before pg (pg_raster pic) /\ Inv (before ++ pg) (ap_rs p').

Hypothesis HPv : forall v, P v -> value_ok v.

Lemma each_page : forall pgs vs before n p ps,
  SplitPages vs pgs -> ap_rest p = okv vs -> (exists b, ap_state p = PsOn b) ->
  Forall P vs -> kept d before (ap_rs p) -> Inv before (ap_rs p) ->
  a_take md d n p = Val (map Ok ps) -> (List.length ps < n)%nat ->
  EachPage d F before pgs ps.
Proof.
  induction pgs as [|pg pgs IH]; intros vs before n p ps HS HR [b Hst] HV HK HC H HLt.
  { inversion HS. }
  destruct n as [|n]; cbn [a_take] in H; [lia|].
  apply bind_val in H as ([o p1] & HN & H). unfold a_next in HN. rewrite Hst in HN.
  apply bind_val in HN as ([p2 rp] & HP & HN). cbn [fst snd] in HN. injection HN as <- <-.
  apply bind_val in H as (l & HL & H). injection H as H.
  destruct ps as [|pic ps]; [discriminate|]. cbn [map] in H. injection H as -> ->. cbn [List.length] in HLt.
  pose proof HP as HP0.
  apply on_page_ok in HP as (pg' & tail & Hx & Hn & HF & HT & _ & _ & [_ PS PR PE] & HD & _ & _).
  assert (pg' = pg /\ ((tail = [] /\ pgs = []) \/ exists r, tail = Val (Ok VNewPage) :: r /\
             exists vs', r = okv vs' /\ SplitPages vs' pgs)) as [-> HT'].
  { rewrite HR in Hx. destruct (SplitPages_unique _ _ _ _ HS Hx Hn) as [U1 U2].
    destruct HT as [->|(r & -> & _)].
    - specialize (U1 eq_refl). injection U1 as -> ->. auto.
    - destruct (U2 r eq_refl) as (vs' & pgs' & -> & E & HS'). injection E as -> ->. split; auto. right. eauto. }
  assert (HVx : all_of P (ap_rest p)).
  { rewrite HR. intros v I. unfold okv in I. apply in_map_iff in I as (v' & E & I). injection E as ->.
    rewrite Forall_forall in HV. auto. }
  assert (RL : rs_rect (ap_rs p2) = last_rect d pg).
  { apply (last_rect_is md); auto. apply Forall_forall. intros v I. apply HPv, HVx. rewrite Hx. apply in_or_app. left.
    unfold okv. apply in_map_iff. eauto. }
  destruct (Step before p p2 pic pg tail HC Hx Hn (PageTail_weak _ _ HT) HVx HP0) as (KS & KC).
  pose proof (kept_start d before _ pg HK) as HK1. pose proof (kept_same d _ _ _ PS HK1) as HK2.
  pose proof (kept_page _ _ _ _ HK2) as KB.
  destruct HK1 as [HT1 _]. pose proof HK2 as [HT2 _].
  assert (KD : pg_duration pic = fst (times_of d (before ++ pg))) by (rewrite <- HT1; exact HD).
  set (off := snd (times_of d (before ++ pg))) in *.
  assert (EOFF : rs_off_time (page_start d (ap_rs p) pg) = off) by (unfold off; rewrite <- HT1; reflexivity).
  assert (KO : rs_off_time (ap_rs p2) = off) by (unfold off; rewrite <- HT2; reflexivity).
  rewrite EOFF in PE.
  assert (Hcase :
    (pgs = [] /\ ap_rest p2 = [] /\ ap_state p2 = done (0 <? off)) \/
    (exists vs', ap_rest p2 = okv vs' /\ SplitPages vs' pgs /\ ap_state p2 = new_page (0 <? off)
       /\ Forall P vs')).
  { rewrite HR in PE. destruct HT' as [[-> ->]|(r & -> & vs' & -> & HS')].
    - destruct PE as [(E1 & E2 & E3)|(E1 & E3)]; [left; auto|].
      exfalso. rewrite HR in Hx. rewrite Hx in E1. apply okv_split in E1; eauto. destruct E1; discriminate.
    - right. exists vs'. destruct PE as [(E1 & E2 & E3)|(E1 & E3)].
      + exfalso. rewrite HR in Hx. rewrite Hx in E1. rewrite <- (app_nil_r (okv pg)) in E1 at 2.
        apply okv_split in E1; eauto. destruct E1; discriminate.
      + splits; auto.
        * rewrite HR in Hx. rewrite Hx in E1. apply okv_split in E1; eauto.
          destruct E1 as [_ E1]. injection E1 as <-. reflexivity.
        * apply Forall_forall. intros v I. apply HVx. rewrite Hx. apply in_or_app. right. right.
          unfold okv. apply in_map_iff. eauto. }
  destruct (Z.ltb_spec 0 off) as [EO|EO].
  - assert (exists m, ap_state p2 = PsOff m) as [mm Est].
    { destruct Hcase as [(_ & _ & ->)|(vs' & _ & _ & -> & _)]; cbn; eauto. }
    destruct n as [|n]; [lia|].
    cbn [a_take] in HL. unfold a_next in HL. rewrite Est in HL. cbn [bind] in HL.
    apply bind_val in HL as (l & HL & H). injection H as H.
    destruct ps as [|Q ps]; [discriminate|]. cbn [map] in H. injection H as <- ->. cbn [List.length] in HLt.
    apply Ep_on_off; auto; cbn [pg_duration pg_raster].
    { cbn. now rewrite <- RL. }
    { cbn. now rewrite <- RL. }
    { intros x y _ _. unfold build_raster. rewrite <- KB. reflexivity. }
    destruct Hcase as [(-> & E2 & E3)|(vs' & E2 & HS' & E3 & HV')].
    + cbn in E3. rewrite E3 in Est. injection Est as <-. cbn [next_state] in HL.
      destruct n as [|n]; [lia|].
      cbn [a_take a_next ap_state bind] in HL. injection HL as HL. destruct ps; [|discriminate]. constructor.
    + cbn in E3. rewrite E3 in Est. injection Est as <-. cbn [next_state] in HL.
      apply IH with (vs := vs') (before := before ++ pg) in HL; auto; cbn [ap_rs ap_state ap_rest]; eauto. lia.
  - apply Ep_on; auto.
    destruct Hcase as [(-> & E2 & E3)|(vs' & E2 & HS' & E3 & HV')]; cbn in E3.
    + destruct n as [|n]; [lia|].
      cbn [a_take] in HL. unfold a_next in HL. rewrite E3 in HL. cbn [bind] in HL.
      injection HL as HL. destruct ps; [|discriminate]. constructor.
    + apply IH with (vs := vs') (before := before ++ pg) in HL; auto; eauto. lia.
Qed.

Lemma pages_show ms ps : Inv [] (rs_new d) ->
  (forall vs, Meaning ms (map Ok vs) -> Forall P vs) ->
  Yields md d ms (map Ok ps) -> PagesShow d F ms ps.
Proof.
  intros HI HP H. destruct (yields_meaning _ _ _ _ H) as (vs & HM). destruct (split_exists vs) as (pgs & HS).
  exists vs, pgs. splits; auto. destruct H as (n & H & HL). rewrite map_length in HL.
  rewrite (take_start md d n ms _ (Reads_meaning _ _ HM)) in H.
  assert (E : map (@Val _) (map Ok vs) = okv vs) by (symmetry; apply okv_map). rewrite E in H.
  apply (each_page pgs vs [] n (a_start d (okv vs)) ps); auto.
  - exists true. reflexivity.
  - apply kept_new.
Qed.
End Each.

Lemma EachPage_impl d (F G : list Value -> list Value -> Raster rgb -> Prop) before pgs ps :
  (forall b pg q, F b pg q -> G b pg q) -> EachPage d F before pgs ps -> EachPage d G before pgs ps.
Proof. intros H. induction 1; [constructor|apply Ep_on|apply Ep_on_off]; auto. Qed.

Lemma PagesShow_impl d (F G : list Value -> list Value -> Raster rgb -> Prop) ms ps :
  (forall b pg q, F b pg q -> G b pg q) -> PagesShow d F ms ps -> PagesShow d G ms ps.
Proof. intros H (vs & pgs & H1 & H2 & H3). exists vs, pgs. splits; auto. eapply EachPage_impl; eauto. Qed.
