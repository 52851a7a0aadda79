(** Facts about the pages of a message, ready for the theorems. *)

From Coq Require Import String.
From Verif Require Import Base Str Multi Color Raster Font Graphic Config Sign Render
  Spec_Multi Spec_Color Spec_Graphic Spec_Sign Spec_Render
  Proofs_Str Proofs_Split Proofs_Tag Proofs_Norm Proofs_Color Proofs_Sign Proofs_Iter Proofs_Machine Proofs_Pages
  Proofs_Reach Proofs_Ends Proofs_Ext Proofs_Count.
Open Scope list_scope.
Ltac Zify.zify_post_hook ::= Z.div_mod_to_equations.

Lemma PRel_rest d p a s rs : PRel d p a -> Unread p s -> Meaning s rs -> ap_rest a = map Val rs.
Proof.
  intros (_ & _ & _ & HR) HU HM. eapply Reads_fun; [exact HR|]. eapply unread_meaning; eauto.
Qed.

Lemma map_val_inj (a b : list (result Value SyntaxError)) :
  map (@Val _) a = map (@Val _) b -> a = b.
Proof. revert b. induction a as [|x a IH]; intros [|y b] H; try discriminate; [reflexivity|]. injection H as -> H. f_equal. auto. Qed.

Lemma map_val_split rs vs tail : map (@Val _) rs = okv vs ++ tail ->
  exists t, rs = map Ok vs ++ t /\ tail = map (@Val _) t.
Proof.
  revert rs. induction vs as [|v vs IH]; intros rs H; cbn in H.
  - exists rs. auto.
  - destruct rs as [|r rs]; [discriminate|]. injection H as -> H. apply IH in H as (t & -> & ->). exists t. auto.
Qed.

(** A yielded ON page in terms of the message. *)
Lemma on_page_message md d ms p pg p' s rs : Reaches md d ms p -> (exists b, p_state p = PsOn b) ->
  Unread p s -> Meaning s rs -> pages_next md d p = Val (Some (Ok pg), p') ->
  exists a a' vs, PRel d p a /\ PRel d p' a' /\ FirstPage rs vs
    /\ a_on_page md d a = Val (a', Ok pg) /\ ap_rest a = map Val rs
    /\ Forall (Supports d) vs /\ (rs = map Ok vs \/ Lists d TNp)
    /\ (Z.of_nat (text_rects vs) <= 49)
    /\ PageOk md d (ap_rest a) (page_start d (ap_rs a) vs) vs a'
    /\ SignSized d (pg_raster pg).
Proof.
  intros HR (b & Hb) HU HM HN. destruct (Reads_exists ms) as (xs & HX).
  destruct (reach_rel _ _ _ _ _ HX HR) as (a & HP & HA).
  pose proof (next_rel md d p a HP) as H. rewrite HN in H.
  destruct (a_next md d a) as [[o a']| |] eqn:EN; cbn in H; try contradiction. destruct H as [<- HP'].
  pose proof (PRel_rest _ _ _ _ _ HP HU HM) as HRS.
  assert (ap_state a = PsOn b) as Hab by (destruct HP as (_ & _ & <- & _); auto).
  unfold a_next in EN. rewrite Hab in EN. apply bind_val in EN as ([a1 r] & EN & E). injection E as -> ->.
  pose proof (on_page_ok _ _ _ _ _ EN) as (vs & tail & Hx & Hn & HS & HT & _ & HC & HO & _ & HZ & _).
  rewrite HRS in Hx. destruct (map_val_split _ _ _ Hx) as (t & Ers & Et).
  exists a, a', vs. splits; auto.
  - split; auto. destruct HT as [->|(r & -> & HL)].
    + left. destruct t; [|discriminate]. now rewrite app_nil_r in Ers.
    + right. destruct t as [|y t]; [discriminate|]. injection Et as <- _. eauto.
  - destruct HT as [->|(r & -> & HL)]; [left|right; apply HL; constructor]. destruct t; [|discriminate]. now rewrite app_nil_r in Ers.
Qed.

(** ** Text rectangles *)

Lemma extend_rect_on w h r : 0 <= rwidth r -> 0 <= rheight r -> 1 <= rx r -> 1 <= ry r ->
  extend_width_height r (mkRect 1 1 w h) = rect_on w h r.
Proof.
  intros. unfold extend_width_height, rect_on, sat_sub. cbn [rx ry rwidth rheight].
  destruct (Z.ltb_spec 0 (rwidth r)), (Z.eqb_spec (rwidth r) 0); try lia;
  destruct (Z.ltb_spec 0 (rheight r)), (Z.eqb_spec (rheight r) 0); try lia; f_equal; lia.
Qed.

Lemma boundary_mod size n : 0 <= size -> 0 <= n ->
  (n mod Z.max size 1 =? 0) = true <-> on_boundary size n.
Proof.
  intros Hs Hn. unfold on_boundary. split.
  - intros H. apply Z.eqb_eq in H. destruct (Z.eq_dec size 0); [now left|right].
    rewrite Z.max_l in H by lia. exists (n / size). pose proof (Z.div_mod n size ltac:(lia)). lia.
  - intros [->|(k & ->)]; apply Z.eqb_eq.
    + cbn. apply Z.mod_1_r.
    + destruct (Z.eq_dec size 0) as [->|]; [cbn; now rewrite Z.mul_0_r|].
      rewrite Z.max_l by lia. now apply Z.mod_mul.
Qed.

Lemma text_rect_spec md d r : u16_rect r -> 1 <= rx r -> 1 <= ry r ->
  u16 (sign_width_pixels (d_vms_cfg d)) -> u16 (sign_height_pixels (d_vms_cfg d)) ->
  0 <= char_width_pixels (d_vms_cfg d) -> 0 <= char_height_pixels (d_vms_cfg d) ->
  arith_ok md (sign_width_pixels (d_vms_cfg d)) (sign_height_pixels (d_vms_cfg d)) r ->
  exists o, update_text_rectangle md d (rs_new d) r = Val o
    /\ (GoodTextRect d r -> o = Some (rect_on (sign_width_pixels (d_vms_cfg d)) (sign_height_pixels (d_vms_cfg d)) r))
    /\ (~ GoodTextRect d r -> o = None).
Proof.
  set (w := sign_width_pixels (d_vms_cfg d)). set (h := sign_height_pixels (d_vms_cfg d)).
  intros Ur Hx Hy Uw Uh Cw Ch A. pose proof Ur as (Ux & Uy & Urw & Urh). unfold u16 in *.
  unfold update_text_rectangle. cbn [rs_rect rs_new]. fold w h.
  destruct (intersection_on md r w h Ur ltac:(unfold u16; lia) ltac:(unfold u16; lia) A Hx Hy) as (i & EI & HI).
  cbv zeta. rewrite EI. cbn [bind]. rewrite extend_rect_on in * by lia.
  pose (q := rect_on w h r). fold q in HI |- *.
  assert (rx q = rx r) as Qx by reflexivity. assert (ry q = ry r) as Qy by reflexivity.
  assert (HOS : OnSign w h r <-> (1 <= rwidth q /\ 1 <= rheight q \/ w = 0 /\ h = 0) /\ rx q - 1 + rwidth q <= w /\ ry q - 1 + rheight q <= h).
  { unfold OnSign, q, rect_on. destruct r as [ra rb rc rk]. cbn [rx ry rwidth rheight] in *.
    assert (mkRect ra rb rc rk = mkRect 1 1 0 0 <-> ra = 1 /\ rb = 1 /\ rc = 0 /\ rk = 0) as ->.
    { split; [intros [= -> -> -> ->]; auto|intros (-> & -> & -> & ->); auto]. }
    destruct (Z.eqb_spec rc 0), (Z.eqb_spec rk 0); lia. }
  assert (0 <= rwidth q /\ 0 <= rheight q) as [Q1 Q2].
  { unfold q, rect_on. cbn [rwidth rheight]. destruct (_ =? _), (rheight r =? 0); lia. }
  assert (EG : GoodTextRect d r <-> OnSign w h r
      /\ on_boundary (char_width_pixels (d_vms_cfg d)) (rx q - 1)
      /\ on_boundary (char_width_pixels (d_vms_cfg d)) (rwidth q)
      /\ on_boundary (char_height_pixels (d_vms_cfg d)) (ry q - 1)
      /\ on_boundary (char_height_pixels (d_vms_cfg d)) (rheight q)).
  { unfold GoodTextRect. cbv zeta. fold w h q. rewrite HOS. tauto. }
  setoid_rewrite EG. clear EG HOS. clearbody q.
  destruct (rect_eqb i q) eqn:EQ; cbn [negb].
  2:{ exists None. split; [reflexivity|]. split; [|reflexivity]. intros [HO _]. apply HI in HO. discriminate. }
  assert (HO : OnSign w h r) by now apply HI.
  assert (0 <= rx q - 1 < 65536 /\ 0 <= ry q - 1 < 65536) as [B1 B2] by lia.
  rewrite (chk16_in md (rx q - 1)) by lia. cbn [bind].
  unfold r_char_width, r_char_height, char_width, char_height in *.
  pose proof (boundary_mod _ (rx q - 1) Cw ltac:(lia)) as M1. pose proof (boundary_mod _ (rwidth q) Cw ltac:(lia)) as M2.
  pose proof (boundary_mod _ (ry q - 1) Ch ltac:(lia)) as M3. pose proof (boundary_mod _ (rheight q) Ch ltac:(lia)) as M4.
  destruct ((rx q - 1) mod _ =? 0) eqn:E1 in |- *; cbn [negb orb].
  2:{ exists None. split; [reflexivity|]. split; [|reflexivity]. intros (_ & HB & _). apply M1 in HB. congruence. }
  destruct (rwidth q mod _ =? 0) eqn:E2 in |- *; cbn [negb orb].
  2:{ exists None. split; [reflexivity|]. split; [|reflexivity]. intros (_ & _ & HB & _). apply M2 in HB. congruence. }
  rewrite (chk16_in md (ry q - 1)) by lia. cbn [bind].
  destruct ((ry q - 1) mod _ =? 0) eqn:E3 in |- *; cbn [negb orb].
  2:{ exists None. split; [reflexivity|]. split; [|reflexivity]. intros (_ & _ & _ & HB & _). apply M3 in HB. congruence. }
  destruct (rheight q mod _ =? 0) eqn:E4 in |- *; cbn [negb orb].
  2:{ exists None. split; [reflexivity|]. split; [|reflexivity]. intros (_ & _ & _ & _ & HB). apply M4 in HB. congruence. }
  exists (Some q). split; [reflexivity|]. split; [reflexivity|]. intros HN. exfalso. apply HN. splits; auto.
  - now apply M1. - now apply M2. - now apply M3. - now apply M4.
Qed.

(** Reading a [tr] tag. *)
Lemma text_rect_tag md d p raster s r rest : u16_rect r -> 1 <= rx r -> 1 <= ry r ->
  u16 (sign_width_pixels (d_vms_cfg d)) -> u16 (sign_height_pixels (d_vms_cfg d)) ->
  0 <= char_width_pixels (d_vms_cfg d) -> 0 <= char_height_pixels (d_vms_cfg d) ->
  arith_ok md (sign_width_pixels (d_vms_cfg d)) (sign_height_pixels (d_vms_cfg d)) r ->
  p_default p = rs_new d -> Unread p s -> Meaning s (Ok (VTextRectangle r) :: rest) ->
  exists p' res, render_text_rectangle md d p raster = Val (p', res)
    /\ (GoodTextRect d r -> res = Ok raster /\ p_state p' = PsOn false
          /\ rs_rect (p_rs p') = rect_on (sign_width_pixels (d_vms_cfg d)) (sign_height_pixels (d_vms_cfg d)) r)
    /\ (~ GoodTextRect d r -> res = Err (SUnsupportedTagValue (display (VTextRectangle r)))).
Proof.
  intros Ur Hx Hy Uw Uh Cw Ch A HD HU HM.
  destruct (text_rect_spec md d r Ur Hx Hy Uw Uh Cw Ch A) as (o & EO & HG & HB).
  pose (a := mkAP (p_rs p) (p_state p) (map Val (Ok (VTextRectangle r) :: rest))).
  assert (HP : PRel d p a). { unfold PRel, a. cbn. splits; auto. exact (unread_meaning _ _ _ HU HM). }
  pose proof (text_rect_rel md d p a raster HP) as H. unfold a_text_rect in H. cbn [ap_rest ap_rs a map a_rtr bind] in H.
  rewrite EO in H. cbn [bind] in H.
  destruct o as [q|]; cbn [bind a_res a_rs a_state a_rest a_spans] in H.
  - cbn in H. destruct (render_text_rectangle md d p raster) as [[p' res]| |]; cbn in H; try contradiction.
    destruct H as [(_ & Er & Es & _) ->]. exists p', (Ok raster). split; [reflexivity|]. split.
    + intros G. splits; auto. rewrite Er. cbn. specialize (HG G). injection HG as <-. reflexivity.
    + intros G. specialize (HB G). discriminate.
  - destruct (render_text_rectangle md d p raster) as [[p' res]| |]; cbn in H; try contradiction.
    destruct H as [_ ->]. exists p'. eexists. split; [reflexivity|]. split; [|reflexivity].
    intros G. specialize (HG G). discriminate.
Qed.

Definition AllRects (md : mode) (d : Dms) (vs : list Value) : Prop :=
  forall r, In (VTextRectangle r) vs -> exists q, update_text_rectangle md d (rs_new d) r = Val (Some q).

Lemma inner_no_rect r vs : Forall inner vs -> ~ In (VTextRectangle r) vs.
Proof. intros H HI. rewrite Forall_forall in H. now apply H in HI. Qed.

Lemma page_loop_rects md d fuel : forall n p raster p' raster',
  ap_state p = PsOn false ->
  a_page_loop md d fuel n p raster = Val (p', Ok raster') ->
  exists vs tail, ap_rest p = okv vs ++ tail /\ no_page_break vs
    /\ (tail = [] \/ exists r, tail = Val (Ok VNewPage) :: r) /\ AllRects md d vs.
Proof.
  induction fuel as [|f IH]; intros n p raster p' raster' Hs H; cbn [a_page_loop] in H; [discriminate|].
  rewrite Hs in H.
  apply bind_val in H as (g & HG & H). destruct g as [r1|e]; [|discriminate].
  apply bind_val in H as ([p1 r2] & HT & H). destruct r2 as [r2|e]; [|discriminate].
  unfold a_text_rect in HT. apply bind_val in HT as (e & HE & HT).
  destruct (a_rtr_ok _ _ _ _ _ _ _ _ _ HE) as [_ HOK].
  destruct (a_res e) as [[]|er] eqn:ER; [|discriminate].
  apply bind_val in HT as (r3 & HR & HT). injection HT as <- ->.
  specialize (HOK eq_refl). cbv zeta in H.
  destruct (MAX_TEXT_RECTANGLES <? n + 1) eqn:EM; [discriminate|].
  destruct HOK as [vs e Hx Hi _ _ _|vs e Hx Hi _ _|vs r q e Hx Hi HS1 HU _].
  - exists vs, []. rewrite app_nil_r. splits; auto; [now apply inner_np|].
    intros r HI. now apply inner_no_rect in HI.
  - exists vs, (Val (Ok VNewPage) :: a_rest e). splits; eauto; [now apply inner_np|].
    intros r HI. now apply inner_no_rect in HI.
  - apply IH in H; [|exact HS1]. destruct H as (vs' & tail & Hx' & Hn & Ht & Ha). cbn [ap_rest] in Hx'.
    exists (vs ++ VTextRectangle r :: vs'), tail. splits; auto.
    + rewrite Hx, Hx', okv_app, <- app_assoc. reflexivity.
    + intros HI. apply in_app_or in HI as [HI|[HI|HI]]; [now apply (inner_np vs Hi)|discriminate|auto].
    + intros r' HI. apply in_app_or in HI as [HI|[HI|HI]]; [now apply inner_no_rect in HI| |auto].
      injection HI as <-. eauto.
Qed.

Lemma on_page_rects md d p p' pg vs tail : a_on_page md d p = Val (p', Ok pg) ->
  ap_rest p = okv vs ++ tail -> no_page_break vs -> (tail = [] \/ exists r, tail = Val (Ok VNewPage) :: r) ->
  AllRects md d vs.
Proof.
  intros H Hx Hn Ht.
  pose proof (on_page_ok _ _ _ _ _ H) as (vs1 & tail1 & Hx1 & Hn1 & _ & HT1 & _ & _ & _ & _ & _ & r & HL & _).
  apply page_loop_rects in HL; auto. destruct HL as (vs2 & tail2 & Hx2 & Hn2 & Ht2 & HA). cbn in Hx2.
  destruct (okv_split vs vs2 tail tail2) as [-> _]; auto. congruence.
Qed.

(** ** OFF pages *)

Lemma pages_next_off md d p b : p_state p = PsOff b ->
  pages_next md d p = Val (Some (Ok (mkPage (build_raster (p_rs p)) (rs_off_time (p_rs p)))),
    mkPages (p_default p) (p_rs p) (next_state (PsOff b)) (p_values p) (p_spans p)).
Proof. intros E. unfold pages_next. rewrite E. unfold render_off_page. rewrite E. reflexivity. Qed.

Lemma with_color_uniform {P} w h (c : P) : Uniform (with_color w h c) c.
Proof. intros x y _ _. reflexivity. Qed.

(** A page without [tr]: nothing left to read is a [tr], so the text rectangle stays the sign. *)
Definition face (d : Dms) : Rectangle :=
  mkRect 1 1 (sign_width_pixels (d_vms_cfg d)) (sign_height_pixels (d_vms_cfg d)).

Lemma rectless_suffix a b : suffix a b -> rectless b -> rectless a.
Proof. intros HS H r HI. apply (H r). eapply suffix_in; eauto. Qed.

Lemma rectless_update (d : Dms) ds xs : rectless xs -> forall rs rs' u,
  update_page_loop ds (bare xs) rs = Val (rs', u) -> rs_rect rs' = rs_rect rs.
Proof.
  intros _. induction xs as [|x xs IH]; intros rs rs' u H; cbn [bare map update_page_loop] in H; [now injection H as <- _|].
  destruct x as [[v|e]| |]; cbn [bind] in H; try discriminate; [|now injection H as <- _].
  destruct v; try (apply IH in H; exact H); try (now injection H as <- _).
  - destruct (set_background _ _ _) as [ctx [o|e]]; [apply IH in H; exact H|now injection H as <- _].
  - destruct (set_background _ _ _) as [ctx [o|e]]; [apply IH in H; exact H|now injection H as <- _].
Qed.

Lemma page_loop_face md d fuel : forall n p raster p' r, rectless (ap_rest p) ->
  a_page_loop md d fuel n p raster = Val (p', r) -> rs_rect (ap_rs p') = rs_rect (ap_rs p).
Proof.
  induction fuel as [|f IH]; intros n p raster p' r HN H; cbn [a_page_loop] in H; [discriminate|].
  destruct (ap_state p) as [[]| |]; try (now injection H as <- _).
  apply bind_val in H as (g & HG & H). destruct g as [r1|e]; [|now injection H as <- _].
  apply bind_val in H as ([p1 r2] & HT & H). unfold a_text_rect in HT. apply bind_val in HT as (e & HE & HT).
  pose proof (a_rtr_rect _ _ _ _ _ HN _ _ _ _ HE) as HR. pose proof (a_rtr_suffix _ _ _ _ _ _ _ _ _ HE) as HS.
  assert (E1 : ap_rs p1 = a_rs e /\ ap_rest p1 = a_rest e).
  { destruct (a_res e); [|injection HT as <- _; auto]. apply bind_val in HT as (r3 & _ & HT). injection HT as <- _. auto. }
  destruct E1 as [E1 E2].
  destruct r2 as [r2|er]; [|injection H as <- _; congruence]. cbv zeta in H.
  destruct (MAX_TEXT_RECTANGLES <? n + 1); [injection H as <- _; congruence|].
  apply IH in H; [congruence|]. rewrite E2. eapply rectless_suffix; eauto.
Qed.

Lemma next_face md d p o p' : rectless (ap_rest p) -> rs_rect (ap_rs p) = face d ->
  a_next md d p = Val (o, p') ->
  rs_rect (ap_rs p') = face d /\ (forall pg, o = Some (Ok pg) -> SignSized d (pg_raster pg)).
Proof.
  intros HN HF H. unfold a_next in H. destruct (ap_state p) as [b|b|].
  - apply bind_val in H as ([p1 r] & H & E). injection E as <- <-. cbn [fst snd]. split.
    + unfold a_on_page in H. apply bind_val in H as (c & HC & H). destruct c as [c|e]; [|now injection H as <- _].
      apply bind_val in H as ([rs u] & HU & H). unfold update_page_state in HU.
      apply (rectless_update d _ _ HN) in HU.
      assert (rs_rect rs = face d) as HR by (rewrite HU; destruct (ap_rs p); reflexivity).
      destruct u as [u|e]; [|now injection H as <- _].
      apply bind_val in H as ([p2 r2] & HL & H).
      apply page_loop_face in HL; auto. cbn [ap_rs] in HL.
      destruct r2; injection H as <- _; congruence.
    + intros pg [= ->]. apply on_page_ok in H. destruct H as (vs & tail & _ & _ & _ & _ & _ & _ & _ & _ & HZ & _). exact HZ.
  - injection H as <- <-. cbn [ap_rs]. split; auto. intros pg [= <-]. unfold SignSized, build_raster. rewrite HF. auto.
  - injection H as <- <-. split; auto. discriminate.
Qed.

Lemma next_rest md d p o p' : a_next md d p = Val (o, p') -> suffix (ap_rest p') (ap_rest p).
Proof.
  intros H. unfold a_next in H. destruct (ap_state p) as [b|b|] eqn:ES.
  - apply bind_val in H as ([p1 r] & H & E). injection E as <- <-. cbn.
    destruct (on_page_progress _ _ _ _ _ (ex_intro _ b ES) H) as [[_ HS]|(_ & _ & _ & _ & ->)]; auto. apply suffix_refl.
  - injection H as <- <-. apply suffix_refl.
  - injection H as <- <-. apply suffix_refl.
Qed.

Lemma take_face md d : forall n p l, rectless (ap_rest p) -> rs_rect (ap_rs p) = face d ->
  a_take md d n p = Val l -> forall pg, In (Ok pg) l -> SignSized d (pg_raster pg).
Proof.
  induction n as [|n IH]; intros p l HN HF H pg HI; cbn [a_take] in H; [now injection H as <-|].
  apply bind_val in H as ([o p'] & HX & H).
  destruct (next_face _ _ _ _ _ HN HF HX) as [HF' HO]. pose proof (next_rest _ _ _ _ _ HX) as HS.
  destruct o as [x|]; [|injection H as <-; contradiction].
  apply bind_val in H as (l' & HT & H). injection H as <-. destruct HI as [->|HI]; [now apply HO|].
  apply (IH p' l'); auto. exact (rectless_suffix _ _ HS HN).
Qed.

Lemma rectless_of ms ts : Tokens ms ts ->
  (forall t r, In t ts -> ~ TokenDenotes t (Ok (VTextRectangle r))) -> rectless (map try_from ts).
Proof.
  intros HT H r HI. apply in_map_iff in HI as (t & E & HI).
  apply Tokens_Token in HT. rewrite Forall_forall in HT. destruct (HT t HI) as (rest & HTk).
  destruct (try_from_token t rest HTk) as [[_ E']|[_ (res & E' & Hd)]]; rewrite E' in E; [discriminate|].
  injection E as ->. now apply (H t r HI).
Qed.

Lemma sizes_no_rect md d n ms ts l pg : Tokens ms ts ->
  (forall t r, In t ts -> ~ TokenDenotes t (Ok (VTextRectangle r))) ->
  pages_take md d n (pages_new d ms) = Val l -> In (Ok pg) l -> SignSized d (pg_raster pg).
Proof.
  intros HT HN H HI. rewrite (take_start md d n ms _ (Reads_new _ _ HT)) in H.
  apply (take_face md d n (a_start d (map try_from ts)) l); auto. exact (rectless_of ms ts HT HN).
Qed.

(** The size of an OFF page. *)
Lemma off_page_size md d ms p pg p1 q p2 b s rs vs :
  Reaches md d ms p -> (exists b, p_state p = PsOn b) -> Unread p s -> Meaning s rs ->
  pages_next md d p = Val (Some (Ok pg), p1) -> FirstPage rs vs ->
  p_state p1 = PsOff b -> pages_next md d p1 = Val (Some (Ok q), p2) ->
  exists r, LastRect md d (rs_new d) (face d) vs r
    /\ r_width (pg_raster q) = rwidth r /\ r_height (pg_raster q) = rheight r.
Proof.
  intros HR HS HU HM HN HF HO HQ.
  destruct (on_page_message _ _ _ _ _ _ _ _ HR HS HU HM HN)
    as (a & a' & vs' & HP & HP' & HF' & EO & HRs & _ & _ & _ & [_ _ HLR _] & _).
  rewrite (pages_next_off _ _ _ _ HO) in HQ. injection HQ as <- _. cbn [pg_raster build_raster with_color r_width r_height].
  assert (vs' = vs) as ->.
  { destruct HF as [Hn HF], HF' as [Hn' HF'].
    assert (HC : forall l (v : list Value), rs = map Ok v \/ (exists t, rs = map Ok v ++ Ok VNewPage :: t) -> l = map (@Val _) rs ->
        exists tail, l = okv v ++ tail /\ (tail = [] \/ exists r, tail = Val (Ok VNewPage) :: r)).
    { intros l v [E|(t & E)] ->; rewrite E.
      - exists []. rewrite app_nil_r, <- okv_map. auto.
      - exists (map (@Val _) (Ok VNewPage :: t)). rewrite map_app, <- okv_map. split; auto. right. cbn. eauto. }
    destruct (HC _ vs HF eq_refl) as (t1 & E1 & T1). destruct (HC _ vs' HF' eq_refl) as (t2 & E2 & T2).
    destruct (okv_split vs vs' t1 t2) as [-> _]; auto. congruence. }
  destruct HP' as (_ & -> & _).
  exists (rs_rect (ap_rs a')). split; [|auto].
  assert (E : rs_rect (page_start d (ap_rs a) vs) = face d) by (destruct (ap_rs a); reflexivity).
  now rewrite E in HLR.
Qed.

(** ** The whole page sequence *)

Lemma split_exists vs : exists pgs, SplitPages vs pgs.
Proof.
  induction vs as [|v vs (pgs & IH)].
  - exists [[]]. apply Sp_last. intros [].
  - assert (HD : v = VNewPage \/ v <> VNewPage) by (destruct v; auto; right; discriminate).
    destruct HD as [->|Hv].
    + exists ([] :: pgs). apply (Sp_cons []); auto. intros [].
    + inversion IH as [pg Hn E1 E2|pg rest pgs' Hn HS E1 E2]; subst.
      * exists [v :: vs]. apply Sp_last. intros [E|HI]; [congruence|auto].
      * exists ((v :: pg) :: pgs'). apply (Sp_cons (v :: pg)); auto. intros [E|HI]; [congruence|auto].
Qed.

Lemma page_sequence md d ms ps : Yields md d ms (map Ok ps) ->
  exists vs pgs, Meaning ms (map Ok vs) /\ SplitPages vs pgs
    /\ PageSequence (default_page_on_time (d_multi_cfg d)) (default_page_off_time (d_multi_cfg d)) [] pgs ps.
Proof.
  intros H. destruct (yields_meaning _ _ _ _ H) as (vs & HM). destruct (split_exists vs) as (pgs & HS).
  exists vs, pgs. splits; auto. destruct H as (n & H & HL). rewrite map_length in HL.
  rewrite (take_start md d n ms _ (Reads_meaning _ _ HM)) in H.
  assert (E : map (@Val _) (map Ok vs) = okv vs) by (symmetry; apply okv_map). rewrite E in H.
  refine (proj2 (sequence_ok md d pgs vs [] n (a_start d (okv vs)) ps HS eq_refl _ _ H) HL).
  - exists true. reflexivity.
  - apply Tf_default. intros ? ? [].
Qed.

Lemma on_page_size md d ms p pg p' :
  Reaches md d ms p -> (exists b, p_state p = PsOn b) ->
  pages_next md d p = Val (Some (Ok pg), p') -> SignSized d (pg_raster pg).
Proof.
  intros HR (b & Hb) HN. destruct (Reads_exists ms) as (xs & HX).
  destruct (reach_rel _ _ _ _ _ HX HR) as (a & HP & HA).
  pose proof (next_rel md d p a HP) as H. rewrite HN in H.
  destruct (a_next md d a) as [[o a']| |] eqn:EN; cbn in H; try contradiction. destruct H as [<- HP'].
  assert (ap_state a = PsOn b) as Hab by (destruct HP as (_ & _ & <- & _); auto).
  unfold a_next in EN. rewrite Hab in EN. apply bind_val in EN as ([a1 r] & EN & E). injection E as -> ->.
  apply on_page_ok in EN. destruct EN as (vs & tail & _ & _ & _ & _ & _ & _ & _ & _ & HZ & _). exact HZ.
Qed.

Lemma update_rect_extends md d r q : 0 <= rwidth r -> 0 <= rheight r -> 1 <= rx r -> 1 <= ry r ->
  update_text_rectangle md d (rs_new d) r = Val (Some q) ->
  q = rect_on (sign_width_pixels (d_vms_cfg d)) (sign_height_pixels (d_vms_cfg d)) r.
Proof.
  intros Hw Hh Hx Hy H. unfold update_text_rectangle in H. cbv zeta in H.
  apply bind_val in H as (i & _ & H). cbn [rs_rect rs_new] in H. rewrite extend_rect_on in H by lia.
  destruct (negb _); [discriminate|]. apply bind_val in H as (x & _ & H).
  destruct (_ || _); [discriminate|]. apply bind_val in H as (y & _ & H).
  destruct (_ || _); [discriminate|]. now injection H as <-.
Qed.

Lemma rects_split a r b a' r' b' : text_rects b = O -> text_rects b' = O ->
  a ++ VTextRectangle r :: b = a' ++ VTextRectangle r' :: b' -> r = r'.
Proof.
  revert a'. induction a as [|v a IH]; intros [|v' a'] Hb Hb' E; cbn in E.
  - now injection E.
  - injection E as _ ->. rewrite text_rects_app in Hb. cbn in Hb. lia.
  - injection E as _ <-. rewrite text_rects_app in Hb'. cbn in Hb'. lia.
  - injection E as _ E. eauto.
Qed.

Lemma off_page_exact md d ms p pg p1 q p2 b s rs vs :
  Reaches md d ms p -> (exists b, p_state p = PsOn b) -> Unread p s -> Meaning s rs ->
  pages_next md d p = Val (Some (Ok pg), p1) -> FirstPage rs vs ->
  p_state p1 = PsOff b -> pages_next md d p1 = Val (Some (Ok q), p2) ->
  (text_rects vs = O -> SignSized d (pg_raster q))
  /\ (forall x r y, vs = x ++ VTextRectangle r :: y -> text_rects y = O -> 1 <= rx r -> 1 <= ry r ->
        0 <= rwidth r -> 0 <= rheight r ->
        let e := rect_on (sign_width_pixels (d_vms_cfg d)) (sign_height_pixels (d_vms_cfg d)) r in
        r_width (pg_raster q) = rwidth e /\ r_height (pg_raster q) = rheight e).
Proof.
  intros HR HS HU HM HN HF HO HQ.
  destruct (off_page_size _ _ _ _ _ _ _ _ _ _ _ _ HR HS HU HM HN HF HO HQ) as (r & HL & HW & HH).
  split.
  - intros HZ. unfold SignSized. rewrite HW, HH. destruct HL as [vs Hz|a r' b' q' Hz HU']; [auto|].
    rewrite text_rects_app in HZ. cbn in HZ. lia.
  - intros x r0 y E Hy H1 H2 H3 H4. cbv zeta. rewrite HW, HH.
    destruct HL as [vs Hz|a r' b' q' Hz HU'].
    + subst vs. rewrite text_rects_app in Hz. cbn in Hz. lia.
    + apply rects_split in E; auto. subst r'. apply update_rect_extends in HU'; auto. subst q'. auto.
Qed.

(** ** Ending *)

Lemma take_cases md d ms ts : Tokens ms ts ->
  (exists l, Yields md d ms l /\ List.length l <= 3 * List.length ts + 2)%nat
  \/ (exists n, (n <= 3 * List.length ts + 3)%nat /\ pages_take md d n (pages_new d ms) = Panic)
  \/ (exists l e, (List.length l <= 3 * List.length ts + 2)%nat
       /\ forall k, pages_take md d (List.length l + k) (pages_new d ms) = Val (l ++ repeat (Err e) k)).
Proof.
  intros HT. pose proof (Reads_new _ _ HT) as HX.
  assert (EM : mu (a_start d (map try_from ts)) = (3 * List.length ts + 2)%nat).
  { unfold mu, a_start. cbn [ap_rest ap_state weight]. rewrite map_length. reflexivity. }
  destruct (take_trichotomy md d (a_start d (map try_from ts))) as [(l & H & HL)|[(n & HL & H)|(l & e & HL & H)]].
  - left. exists l. rewrite EM in HL. split; auto. exists (S (List.length l)). rewrite (take_start md d _ ms _ HX). split; auto.
  - right. left. exists n. rewrite EM in HL. split; [lia|]. rewrite (take_start md d _ ms _ HX).
    destruct H as [H|H]; auto. exfalso. apply (pages_run md d n ms). rewrite (take_start md d _ ms _ HX). exact H.
  - right. right. exists l, e. rewrite EM in HL. split; auto. intros k. rewrite (take_start md d _ ms _ HX). auto.
Qed.

Lemma no_error_ends md d ms ts : Tokens ms ts ->
  (forall n, exists ps, pages_take md d n (pages_new d ms) = Val (map Ok ps)) ->
  exists ps, Yields md d ms (map Ok ps).
Proof.
  intros HT H. destruct (take_cases md d ms ts HT) as [(l & HY & _)|[(n & _ & E)|(l & e & _ & E)]].
  - destruct HY as (n & E & HL). destruct (H n) as (ps & E'). rewrite E' in E. injection E as <-.
    exists ps. exists n. auto.
  - destruct (H n) as (ps & E'). congruence.
  - destruct (H (List.length l + 1)%nat) as (ps & E'). rewrite E in E'. injection E' as E'.
    exfalso. assert (HI : In (Err e) (map (@Ok Page SyntaxError) ps)).
    { rewrite <- E'. apply in_or_app. right. now left. }
    apply in_map_iff in HI as (? & HI & _). discriminate.
Qed.

(** ** Refused pages *)

Lemma reach_a md d ms p s rs : Reaches md d ms p -> Unread p s -> Meaning s rs ->
  exists a, PRel d p a /\ ap_rest a = map Val rs.
Proof.
  intros HR HU HM. destruct (Reads_exists ms) as (xs & HX).
  destruct (reach_rel _ _ _ _ _ HX HR) as (a & HP & _). exists a. split; auto. eapply PRel_rest; eauto.
Qed.

Lemma page_refused md d ms p s vs x e rest : Reaches md d ms p -> (exists b, p_state p = PsOn b) ->
  Unread p s -> Meaning s (map Ok vs ++ x :: rest) -> no_page_break vs -> Forall (Supports d) vs ->
  Refused d x e -> exists p', pages_next md d p = Val (Some (Err e), p').
Proof.
  intros HR (b & Hb) HU HM Hn HS Hx. destruct (reach_a _ _ _ _ _ _ HR HU HM) as (a & HP & Ha).
  pose proof (next_rel md d p a HP) as H.
  assert (ap_state a = PsOn b) as Hab by (destruct HP as (_ & _ & <- & _); auto).
  assert (HN : a_next md d a = Val (Some (Err e), a)).
  { unfold a_next. rewrite Hab. unfold a_on_page. rewrite Ha, map_app, <- okv_map. cbn [map].
    rewrite (check_err d vs x e _ Hn HS Hx). reflexivity. }
  rewrite HN in H. destruct (pages_next md d p) as [[o p']| |]; cbn in H; try contradiction.
  destruct H as [-> _]. eauto.
Qed.

Lemma page_supported md d ms p s rs pg p' : Reaches md d ms p -> (exists b, p_state p = PsOn b) ->
  Unread p s -> Meaning s rs -> pages_next md d p = Val (Some (Ok pg), p') ->
  exists vs, FirstPage rs vs /\ Forall (Supports d) vs /\ (rs = map Ok vs \/ Lists d TNp).
Proof.
  intros HR HS HU HM HN.
  destruct (on_page_message _ _ _ _ _ _ _ _ HR HS HU HM HN) as (a & a' & vs & _ & _ & HF & _ & _ & H1 & H2 & _).
  eauto.
Qed.

Lemma page_rects_limit md d ms p s rs pg p' : Reaches md d ms p -> (exists b, p_state p = PsOn b) ->
  Unread p s -> Meaning s rs -> pages_next md d p = Val (Some (Ok pg), p') ->
  exists vs, FirstPage rs vs /\ (text_rects vs <= 49)%nat.
Proof.
  intros HR HS HU HM HN.
  destruct (on_page_message _ _ _ _ _ _ _ _ HR HS HU HM HN) as (a & a' & vs & _ & _ & HF & _ & _ & _ & _ & H1 & _).
  exists vs. split; auto. lia.
Qed.

Lemma FirstPage_fun rs vs vs' : FirstPage rs vs -> FirstPage rs vs' -> vs = vs'.
Proof.
  intros [Hn H] [Hn' H'].
  assert (HC : forall v : list Value, rs = map Ok v \/ (exists t, rs = map Ok v ++ Ok VNewPage :: t) ->
     exists tail, map (@Val _) rs = okv v ++ tail /\ (tail = [] \/ exists r, tail = Val (Ok VNewPage) :: r)).
  { intros v [E|(t & E)]; rewrite E.
    - exists []. rewrite app_nil_r, <- okv_map. auto.
    - exists (map (@Val _) (Ok VNewPage :: t)). rewrite map_app, <- okv_map. split; auto. right. cbn. eauto. }
  destruct (HC vs H) as (t1 & E1 & T1). destruct (HC vs' H') as (t2 & E2 & T2).
  destruct (okv_split vs vs' t1 t2) as [-> _]; auto. congruence.
Qed.

Lemma page_good_rects md d ms p s rs pg p' vs : Reaches md d ms p -> (exists b, p_state p = PsOn b) ->
  Unread p s -> Meaning s rs -> pages_next md d p = Val (Some (Ok pg), p') -> FirstPage rs vs ->
  vms_fields (d_vms_cfg d) ->
  forall r, In (VTextRectangle r) vs -> u16_rect r -> 1 <= rx r -> 1 <= ry r ->
  arith_ok md (sign_width_pixels (d_vms_cfg d)) (sign_height_pixels (d_vms_cfg d)) r ->
  GoodTextRect d r.
Proof.
  intros HR HS HU HM HN HF HV r HI Ur Hx Hy A.
  destruct (on_page_message _ _ _ _ _ _ _ _ HR HS HU HM HN) as (a & a' & vs' & _ & _ & HF' & HO & Ha & _).
  rewrite (FirstPage_fun _ _ _ HF HF') in HI. destruct HF' as [Hn' HF'].
  assert (HA : AllRects md d vs').
  { destruct HF' as [E|(t & E)].
    - apply (on_page_rects md d a a' pg vs' []); auto. rewrite Ha, E, app_nil_r, <- okv_map. reflexivity.
    - apply (on_page_rects md d a a' pg vs' (map (@Val _) (Ok VNewPage :: t))); auto.
      + rewrite Ha, E, map_app, <- okv_map. reflexivity.
      + right. cbn. eauto. }
  destruct (HA r HI) as (q & EQ). destruct HV as (V1 & V2 & V3 & V4 & _). unfold u8 in *.
  destruct (text_rect_spec md d r Ur Hx Hy V4 V3) as (o & EO & HG & HB); auto; try lia.
  rewrite EO in EQ. injection EQ as ->.
  assert (HD : GoodTextRect d r \/ ~ GoodTextRect d r).
  { unfold GoodTextRect. cbv zeta.
    assert (BD : forall size n, 0 <= size -> on_boundary size n \/ ~ on_boundary size n).
    { intros size n Hs. unfold on_boundary. destruct (Z.eq_dec size 0); [auto|].
      destruct (Z.eq_dec (n mod size) 0) as [E|E].
      - left. right. exists (n / size). pose proof (Z.div_mod n size ltac:(lia)). lia.
      - right. intros [?|(k & ->)]; [lia|]. rewrite Z.mod_mul in E by lia. lia. }
    assert (DA : forall P Q, P \/ ~ P -> Q \/ ~ Q -> P /\ Q \/ ~ (P /\ Q)) by tauto.
    apply DA; [lia|]. repeat (apply DA || apply BD || lia). }
  destruct HD as [|HD]; auto. specialize (HB HD). discriminate.
Qed.

Lemma page_too_many md d ms p s rs p' : Reaches md d ms p -> (exists b, p_state p = PsOn b) ->
  Unread p s -> Meaning s rs ->
  pages_next md d p = Val (Some (Err (SOther (lit "Too many text rectangles"))), p') ->
  exists vs tail, rs = map Ok vs ++ tail /\ no_page_break vs /\ (50 <= text_rects vs)%nat.
Proof.
  intros HR (b & Hb) HU HM HN. destruct (reach_a _ _ _ _ _ _ HR HU HM) as (a & HP & Ha).
  pose proof (next_rel md d p a HP) as H. rewrite HN in H.
  assert (ap_state a = PsOn b) as Hab by (destruct HP as (_ & _ & <- & _); auto).
  destruct (a_next md d a) as [[o a']| |] eqn:EN; cbn [MRel] in H; try contradiction. destruct H as [E _]. cbn [fst] in E. subst o.
  unfold a_next in EN. rewrite Hab in EN. apply bind_val in EN as ([a1 r] & EN & E). injection E as E _. cbn [snd] in E.
  subst r. apply on_page_many in EN.
  - destruct EN as (vs & tail & E & Hn & Hc). rewrite Ha in E. apply map_val_split in E as (t & E & _). eauto.
  - destruct HP as (_ & _ & _ & HRd). eapply (reads_fine TM); eauto.
Qed.

Lemma never_too_many_pages md d ms p p' : Reaches md d ms p ->
  pages_next md d p <> Val (Some (Err STooManyPages), p').
Proof.
  intros HR HN. destruct (Reads_exists ms) as (xs & HX).
  destruct (reach_rel _ _ _ _ _ HX HR) as (a & HP & _).
  pose proof (next_rel md d p a HP) as H. rewrite HN in H.
  destruct (a_next md d a) as [[o a']| |] eqn:EN; cbn [MRel] in H; try contradiction. destruct H as [E _]. cbn [fst] in E. subst o.
  apply few_next in EN; auto. destruct HP as (_ & _ & _ & HRd). eapply (reads_fine STooManyPages); eauto.
Qed.

(** ** Uniqueness of the page sequence *)

Lemma np_split (a b c e : list Value) : no_page_break a -> no_page_break b ->
  a ++ VNewPage :: c = b ++ VNewPage :: e -> a = b /\ c = e.
Proof.
  revert b. induction a as [|x a IH]; intros [|y b] Ha Hb E; cbn in E.
  - injection E as E. auto.
  - injection E as <- _. exfalso. apply Hb. now left.
  - injection E as -> _. exfalso. apply Ha. now left.
  - injection E as -> E. destruct (IH b) as [-> ->]; auto.
    + intros HI. apply Ha. now right.
    + intros HI. apply Hb. now right.
Qed.

Lemma split_unique vs pgs pgs' : SplitPages vs pgs -> SplitPages vs pgs' -> pgs = pgs'.
Proof.
  intros H. revert pgs'. induction H as [pg Hn|pg rest pgs Hn H IH]; intros pgs' H'.
  - inversion H' as [pg' Hn' E1 E2|pg' rest' p' Hn' HS E1 E2]; subst; auto.
    exfalso. apply Hn. apply in_or_app. right. now left.
  - inversion H' as [pg' Hn' E1 E2|pg' rest' p' Hn' HS E1 E2]; subst.
    + exfalso. apply Hn'. apply in_or_app. right. now left.
    + apply np_split in E1 as [-> ->]; auto. f_equal. auto.
Qed.

Lemma pt_split a on off b a' on' off' b' : no_page_time b -> no_page_time b' ->
  a ++ VPageTime on off :: b = a' ++ VPageTime on' off' :: b' -> on = on' /\ off = off'.
Proof.
  revert a'. induction a as [|x a IH]; intros [|y a'] Hb Hb' E; cbn in E.
  - injection E as E1 E2 _. auto.
  - injection E as _ ->. exfalso. apply (Hb on' off'). apply in_or_app. right. now left.
  - injection E as _ <-. exfalso. apply (Hb' on off). apply in_or_app. right. now left.
  - injection E as _ E. eauto.
Qed.

Lemma times_unique on_d off_d vs a b a' b' : TimesInForce on_d off_d vs a b ->
  TimesInForce on_d off_d vs a' b' -> a = a' /\ b = b'.
Proof.
  intros H H'. inversion H as [Hn|x on off y E Hy]; inversion H' as [Hn'|x' on' off' y' E' Hy']; subst; auto.
  - exfalso. apply (Hn on' off'). apply in_or_app. right. now left.
  - exfalso. apply (Hn' on off). apply in_or_app. right. now left.
  - apply pt_split in E' as [-> ->]; auto.
Qed.

Lemma sequence_unique on off before pgs l l' :
  PageSequence on off before pgs l -> PageSequence on off before pgs l' ->
  map pg_duration l = map pg_duration l'.
Proof.
  intros H. revert l'. induction H as [|? ? ? a b P l HT Ho Hd H IH|? ? ? a b P Q c l HT Ho Hd Hq HU H IH]; intros l' H'.
  - inversion H'. reflexivity.
  - inversion H' as [|? ? ? a' b' P' l1 HT' Ho' Hd' H1|? ? ? a' b' P' Q' c' l1 HT' Ho' Hd' Hq' HU' H1]; subst;
      destruct (times_unique _ _ _ _ _ _ _ HT HT') as [EA EB]; [|lia].
    cbn. rewrite EA. f_equal. auto.
  - inversion H' as [|? ? ? a' b' P' l1 HT' Ho' Hd' H1|? ? ? a' b' P' Q' c' l1 HT' Ho' Hd' Hq' HU' H1]; subst;
      destruct (times_unique _ _ _ _ _ _ _ HT HT') as [EA EB]; [lia|].
    cbn. rewrite EA, EB. f_equal. f_equal. auto.
Qed.
