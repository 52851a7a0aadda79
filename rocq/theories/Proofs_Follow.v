(** What a page break leaves behind. *)

From Coq Require Import String Lia.
From Verif Require Import Base Str Multi Color Raster Font Graphic Config Sign Render
  Spec_Multi Spec_Color Spec_Sign Spec_Render Spec_Layout Spec_Page Spec_Follow
  Proofs_Str Proofs_Split Proofs_Norm Proofs_Iter Proofs_Machine Proofs_Reach Proofs_Pages Proofs_Ext Proofs_Page Proofs_Each Proofs_Fail.
Open Scope list_scope.

(** ** Settings of text *)

Definition on_sign (d : Dms) (rs : RenderState) : Prop :=
  exists fg bg, rs_ctx rs = colors d fg bg.

Definition told_to (d : Dms) (rs : RenderState) (vs : list Value) (rs' : RenderState) : Prop :=
  rs_ctx rs' = colors d (in_force (says_fg d) (fg_current (rs_ctx rs)) vs) (bg_current (rs_ctx rs))
  /\ rs_on_time rs' = rs_on_time rs /\ rs_off_time rs' = rs_off_time rs
  /\ rs_jp rs' = in_force (says_jp d) (rs_jp rs) vs /\ rs_jl rs' = in_force (says_jl d) (rs_jl rs) vs
  /\ (rs_font rs', rs_font_vid rs') = in_force (says_font d) (rs_font rs, rs_font_vid rs) vs
  /\ rs_char_spacing rs' = in_force says_spacing (rs_char_spacing rs) vs.

Lemma told_to_nil d rs : on_sign d rs -> told_to d rs [] rs.
Proof. intros (fg & bg & E). unfold told_to. cbn. splits; auto. now rewrite E. Qed.

Lemma told_to_sign d rs vs rs' : told_to d rs vs rs' -> on_sign d rs'.
Proof. intros (E & _). unfold on_sign. eauto. Qed.

Lemma told_to_app d rs a rs1 b rs2 : told_to d rs a rs1 -> told_to d rs1 b rs2 -> told_to d rs (a ++ b) rs2.
Proof.
  intros (A1 & A2 & A3 & A4 & A5 & A6 & A7) (B1 & B2 & B3 & B4 & B5 & B6 & B7). unfold told_to. rewrite !in_force_app.
  rewrite <- A4, <- A5, <- A6, <- A7. splits; try congruence. rewrite B1, A1. reflexivity.
Qed.

(** Steps that only touch lines, spans, rectangles and line spacing. *)
Lemma told_to_same d rs v rs' : on_sign d rs -> rs_ctx rs' = rs_ctx rs -> rs_on_time rs' = rs_on_time rs -> rs_off_time rs' = rs_off_time rs ->
  says_fg d v = None -> rs_jp rs' = or_else (says_jp d v) (rs_jp rs) -> rs_jl rs' = or_else (says_jl d v) (rs_jl rs) ->
  (rs_font rs', rs_font_vid rs') = or_else (says_font d v) (rs_font rs, rs_font_vid rs) ->
  rs_char_spacing rs' = or_else (says_spacing v) (rs_char_spacing rs) -> told_to d rs [v] rs'.
Proof.
  intros (fg & bg & E) E1 E2 E3 E4 E5 E6 E7 E8. unfold told_to. cbn [in_force]. rewrite E4. splits; auto.
  now rewrite E1, E.
Qed.

Lemma rtr_told md d po xs : forall rs spans lb e, on_sign d rs ->
  a_rtr md d (rs_new d) po xs rs spans lb = Val e -> a_res e = Ok tt ->
  exists used, xs = okv used ++ a_rest e /\ told_to d rs used (a_rs e).
Proof.
  induction xs as [|x xs IH]; intros rs spans lb e HO H HR; cbn [a_rtr] in H.
  - injection H as <-. exists []. split; auto. now apply told_to_nil.
  - apply bind_val in H as (r & -> & H).
    destruct r as [v|er]; [|injection H as <-; discriminate].
    assert (go : forall rs1 spans lb, a_rtr md d (rs_new d) po xs rs1 spans lb = Val e -> told_to d rs [v] rs1 ->
               exists used, Val (Ok v) :: xs = okv used ++ a_rest e /\ told_to d rs used (a_rs e)).
    { intros rs1 sp b H1 HT. destruct (IH rs1 sp b e (told_to_sign _ _ _ _ HT) H1 HR) as (used & -> & HU).
      exists (v :: used). split; auto. exact (told_to_app d rs [v] rs1 used _ HT HU). }
    assert (stop : forall rs1 st, Val (mkA rs1 st xs spans (Ok tt)) = Val e -> told_to d rs [v] rs1 ->
               exists used, Val (Ok v) :: xs = okv used ++ a_rest e /\ told_to d rs used (a_rs e)).
    { intros rs1 st [= <-] HT. exists [v]. cbn. auto. }
    assert (bad : forall rs1 st er P, Val (mkA rs1 st xs spans (Err er)) = Val e -> P).
    { intros rs1 st er P [= <-]. discriminate. }
    pose proof (told_to_same d rs v) as same.
    destruct v; try (eapply go; [exact H|]; now apply same); try (eapply stop; [exact H|]; now apply same); try (eapply bad; exact H).
    + destruct (set_foreground _ _ _) as [ctx [u|er]] eqn:E; [|eapply bad; exact H].
      eapply go; [exact H|]. destruct HO as (fg & bg & EC). unfold set_foreground in E. rewrite EC in E.
      unfold told_to. cbn [in_force says_fg or_else says_jp says_jl says_font says_spacing set_ctx rs_ctx rs_on_time rs_off_time rs_jp rs_jl rs_font rs_font_vid rs_char_spacing].
      rewrite EC. splits; auto. destruct c as [c|].
      * destruct (ctx_rgb _ c); [injection E as <- _; reflexivity|discriminate].
      * injection E as <- _. reflexivity.
    + eapply go; [exact H|]. apply same; auto. destruct f as [[n v]|]; reflexivity.
    + destruct (is_charb c); [|eapply bad; exact H]. apply bind_val in H as (sn & _ & H). eapply go; [exact H|]. now apply same.
    + destruct j as [[]|]; try (eapply bad; exact H); (eapply go; [exact H|]; now apply same).
    + destruct j as [[]|]; try (eapply bad; exact H); cbv zeta in H;
        (destruct (negb (jp_eqb _ _)) eqn:E; (eapply go; [exact H|]; apply same; auto);
         cbn; apply negb_false_iff in E; apply jp_eqb_eq in E; now rewrite <- E).
    + cbv zeta in H. match type of H with (if ?c then _ else _) = _ => destruct c end; [eapply bad; exact H|].
      apply bind_val in H as (ln & _ & H). eapply go; [exact H|]. now apply same.
    + destruct (_ && _); [eapply bad; exact H|]. eapply go; [exact H|]. now apply same.
    + apply bind_val in H as (sn & _ & H). eapply go; [exact H|]. now apply same.
    + apply bind_val in H as (o & _ & H). destruct o; [|eapply bad; exact H]. eapply stop; [exact H|]. now apply same.
Qed.

Lemma loop_told md d fuel : forall n p r p' q, on_sign d (ap_rs p) -> a_page_loop md d fuel n p r = Val (p', Ok q) ->
  exists used, ap_rest p = okv used ++ ap_rest p' /\ told_to d (ap_rs p) used (ap_rs p').
Proof.
  induction fuel as [|f IH]; intros n p r p' q HO H; cbn [a_page_loop] in H; [discriminate|].
  destruct (ap_state p) as [[]| |]; try (injection H as <- _; exists []; split; auto using told_to_nil; fail).
  apply bind_val in H as (g & _ & H). destruct g as [r1|e]; [|discriminate].
  apply bind_val in H as ([p1 r2] & HT & H). destruct r2 as [r2|e]; [|discriminate]. cbv zeta in H.
  unfold a_text_rect in HT. apply bind_val in HT as (e & HE & HT).
  destruct (a_res e) as [[]|er] eqn:ER; [|discriminate].
  apply rtr_told in HE as (used & EU & HU); auto.
  apply bind_val in HT as (r3 & HR & HT). injection HT as <- ->.
  destruct (_ <? _); [discriminate|].
  apply IH in H as (more & EM & HM); [|exact (told_to_sign _ _ _ _ HU)]. cbn [ap_rs ap_rest] in *.
  exists (used ++ more). split; [|eapply told_to_app; eauto].
  rewrite EU, EM. unfold okv. now rewrite map_app, app_assoc.
Qed.

(** ** Settings after pages *)

Definition Kept (d : Dms) (vs : list Value) (rs : RenderState) : Prop :=
  rs_ctx rs = colors d (fg_of d vs) (bg_of d vs) /\ (rs_on_time rs, rs_off_time rs) = times_of d vs
  /\ rs_jp rs = jp_of d vs /\ rs_jl rs = jl_of d vs /\ (rs_font rs, rs_font_vid rs) = font_of d vs
  /\ rs_char_spacing rs = in_force says_spacing None vs.

Lemma Kept_new d : Kept d [] (rs_new d).
Proof. unfold Kept. cbn. splits; reflexivity. Qed.

Lemma page_kept md d p p' P before : Kept d before (ap_rs p) -> a_on_page md d p = Val (p', Ok P) ->
  exists vs, Kept d (before ++ vs) (ap_rs p')
    /\ ((ap_rest p = okv vs /\ ap_rest p' = [] /\ exists po, ap_state p' = done po)
        \/ (ap_rest p = okv vs ++ ap_rest p' /\ exists po, ap_state p' = new_page po)).
Proof.
  intros HK H. apply on_page_ok in H as (vs & tail & Hx & Hn & _ & HT & _ & _ & HP & _ & _ & raster & HL & _).
  destruct HK as (K1 & K2 & K3 & K4 & K5 & K6).
  assert (HO : on_sign d (page_start d (ap_rs p) vs)) by (unfold on_sign, page_start; cbn; rewrite K1; cbn; unfold colors; eauto).
  apply loop_told in HL as (used & EU & (U1 & U2 & U3 & U4 & U5 & U6 & U7)); auto. cbn [ap_rest ap_rs] in *.
  assert (HE : (used = vs /\ ap_rest p' = [] /\ ap_rest p = okv vs /\ exists po, ap_state p' = done po)
               \/ used = vs ++ [VNewPage] /\ ap_rest p = okv vs ++ Val (Ok VNewPage) :: ap_rest p' /\ exists po, ap_state p' = new_page po).
  { destruct HP as [_ _ _ [(E1 & E2 & E3)|(E1 & E2)]].
    - left. rewrite E2, app_nil_r, E1 in EU. apply okv_inj in EU. splits; eauto.
    - right. rewrite E1 in EU. replace (okv vs ++ Val (Ok VNewPage) :: ap_rest p') with (okv (vs ++ [VNewPage]) ++ ap_rest p') in EU
        by (unfold okv; rewrite map_app, <- app_assoc; reflexivity).
      apply app_inv_tail, okv_inj in EU. splits; eauto. }
  assert (HF : forall A (f : Value -> option A) x, f VNewPage = None -> in_force f x used = in_force f x vs).
  { intros A f x E. destruct HE as [(-> & _)|(-> & _)]; auto. rewrite in_force_snoc. now rewrite E. }
  rewrite !HF in * by reflexivity.
  assert (EB : bg_current (rs_ctx (page_start d (ap_rs p) vs)) = bg_of d (before ++ vs)).
  { unfold page_start. cbn. rewrite K1. change (last_bg (colors d _ _) vs) with (last_bg (dms_color_ctx d) vs).
    rewrite last_bg_force. unfold bg_of. now rewrite in_force_app. }
  assert (ET : (rs_on_time (page_start d (ap_rs p) vs), rs_off_time (page_start d (ap_rs p) vs)) = times_of d (before ++ vs)).
  { unfold page_start. cbn. rewrite K2, last_times_force. unfold times_of. rewrite in_force_app. now rewrite <- surjective_pairing. }
  assert (KP : Kept d (before ++ vs) (ap_rs p')).
  { unfold Kept. rewrite U1, U2, U3, EB, ET, U4, U5, U6, U7. unfold fg_of, jp_of, jl_of, font_of. rewrite !in_force_app.
    cbn [page_start with_page page_reset set_times set_ctx set_span set_line set_line_spacing set_rect rs_ctx rs_jp rs_jl rs_font rs_font_vid rs_char_spacing fg_current].
    rewrite K1, K3, K4, K5, K6. splits; reflexivity. }
  destruct HE as [(_ & E1 & E2 & E3)|(_ & E1 & E2)].
  - exists vs. split; auto.
  - exists (vs ++ [VNewPage]). split.
    + unfold Kept, fg_of, bg_of, jp_of, jl_of, font_of, times_of in *. rewrite app_assoc, !in_force_snoc. exact KP.
    + right. split; auto. rewrite E1. unfold okv. rewrite map_app, <- app_assoc. reflexivity.
Qed.

(** ** The next page *)

Lemma cont_okv ys vs : Cont ys (okv vs) (okv vs ++ Val (Ok VNewPage) :: ys).
Proof. induction vs as [|v vs IH]; cbn; constructor; auto. Qed.

Lemma cont_okv_eq ys vs b : Cont ys (okv vs) b -> b = okv vs ++ Val (Ok VNewPage) :: ys.
Proof.
  revert b. induction vs as [|v vs IH]; intros b H; inversion H; subst; auto.
  - exfalso. eapply H3. reflexivity.
  - cbn. f_equal. now apply IH.
Qed.

Lemma okv_suffix a b xs : okv a = okv b ++ xs -> exists c, xs = okv c /\ a = b ++ c.
Proof.
  revert a. induction b as [|v b IH]; intros a H; cbn in H.
  - exists a. auto.
  - destruct a as [|w a]; [discriminate|]. injection H as -> H. destruct (IH a H) as (c & -> & ->). eauto.
Qed.

Lemma after_cons P ps m : after_pages (P :: ps) m = let! l := after_pages ps m in Val (Ok P :: l).
Proof. destruct m; reflexivity. Qed.

Lemma follow md d ys : Lists d TNp -> forall n p p2 ps vs before,
  (ap_state p = PsOff true \/ exists b, ap_state p = PsOn b) -> Kept d before (ap_rs p) -> ap_rest p = okv vs ->
  ap_rs p2 = ap_rs p -> ap_state p2 = ap_state p -> ap_rest p2 = okv vs ++ Val (Ok VNewPage) :: ys ->
  a_take md d n p = Val (map Ok ps) -> (List.length ps < n)%nat ->
  exists rs b, Kept d (before ++ vs) rs
    /\ forall m, a_take md d (List.length ps + m) p2 = after_pages ps (a_take md d m (mkAP rs (PsOn b) ys)).
Proof.
  intros HN. induction n as [|n IH]; intros p p2 ps vs before HS HK HR E1 E2 E3 H HL; [lia|]. cbn [a_take] in H.
  apply bind_val in H as ([o p'] & HX & H). destruct o as [x|].
  2:{ exfalso. unfold a_next in HX. destruct HS as [HS|[b HS]]; rewrite HS in HX; [discriminate|].
      apply bind_val in HX as (r & _ & HX). discriminate. }
  apply bind_val in H as (l & Hl & H). injection H as H. destruct ps as [|P ps]; [discriminate|].
  cbn [map] in H. injection H as -> ->. cbn [List.length] in *.
  unfold a_next in HX. destruct HS as [HS|[b HS]]; rewrite HS in HX.
  - (* an off page *)
    injection HX as EP <-. set (q2 := mkAP (ap_rs p2) (PsOn false) (ap_rest p2)).
    assert (HX2 : a_next md d p2 = Val (Some (Ok P), q2)) by (unfold a_next; rewrite E2, HS, E1, EP; unfold q2; rewrite <- E1; reflexivity).
    destruct (IH (mkAP (ap_rs p) (PsOn false) (ap_rest p)) q2 ps vs before) as (rs & b' & K & HT); auto; try lia.
    { right. exists false. reflexivity. }
    exists rs, b'. split; auto. intros m. cbn [Nat.add a_take]. rewrite HX2. cbn [bind]. rewrite HT, after_cons. reflexivity.
  - apply bind_val in HX as ([p1 r] & HP & HX). cbn [fst snd] in HX. injection HX as -> ->.
    assert (HC : Cont ys (ap_rest p) (ap_rest p2)) by (rewrite HR, E3; apply cont_okv).
    destruct (on_page_cont ys md d p p2 p' P HN E1 HC HP) as (q2 & HP2 & (Q1 & Q2)).
    assert (HX2 : a_next md d p2 = Val (Some (Ok P), q2)) by (unfold a_next; rewrite E2, HS, HP2; reflexivity).
    destruct (page_kept md d p p' P before HK HP) as (us & HK' & HE).
    assert (ST : forall m, a_take md d (S (List.length ps) + m) p2 = let! l := a_take md d (List.length ps + m) q2 in Val (Ok P :: l)).
    { intros m. cbn [Nat.add a_take]. rewrite HX2. reflexivity. }
    destruct HE as [(F1 & F2 & po & F3)|(F1 & po & F3)].
    + rewrite HR in F1. apply okv_inj in F1. subst us.
      assert (Q2' : ap_state q2 = new_page po /\ ap_rest q2 = ys).
      { destruct Q2 as [[G1 G2]|(po' & G1 & G2 & G3 & G4)].
        - exfalso. rewrite F3 in G1. pose proof HP2 as HP3. apply on_page_ok in HP3 as (w & tl & Hw & Nw & _ & _ & _ & _ & PO & _).
          destruct PO as [_ _ _ [(W1 & _ & _)|(_ & W1)]].
          + rewrite E3 in W1. apply Nw. apply (f_equal (In (Val (Ok VNewPage)))) in W1.
            assert (I : In (Val (Ok VNewPage)) (okv w)) by (rewrite <- W1; apply in_elt).
            apply in_map_iff in I as (v & [= ->] & I). exact I.
          + rewrite G1 in W1. destruct po; cbn in W1; destruct (0 <? _); discriminate.
        - split; auto. rewrite F3 in G1. destruct po, po'; cbn in G1; try discriminate; auto. }
      destruct Q2' as [G1 G2]. destruct po; cbn [new_page done] in *.
      * (* off page, then the rest *)
        destruct n as [|n]; [lia|]. cbn [a_take] in Hl. unfold a_next in Hl. rewrite F3 in Hl. cbn [bind] in Hl.
        apply bind_val in Hl as (l & Hl & H). destruct ps as [|P2 ps]; [discriminate|]. injection H as H ->.
        assert (ps = []) as ->.
        { destruct n; cbn in Hl; [|injection Hl as Hl; destruct ps; auto; discriminate]. injection Hl as Hl. destruct ps; auto; discriminate. }
        exists (ap_rs q2), false. split; [rewrite Q1; exact HK'|]. intros m. rewrite ST. cbn [List.length Nat.add a_take].
        unfold a_next at 1. rewrite G1, Q1, H. cbn [bind next_state]. rewrite G2, <- Q1.
        rewrite !after_cons. destruct (a_take md d m _); reflexivity.
      * assert (ps = []) as ->.
        { destruct n; cbn [a_take] in Hl; [destruct ps; [auto|discriminate]|].
          unfold a_next in Hl. rewrite F3 in Hl. injection Hl as Hl. destruct ps; auto; discriminate. }
        exists (ap_rs q2), true. split; [rewrite Q1; exact HK'|]. intros m. rewrite ST. cbn [List.length Nat.add].
        rewrite after_cons. replace q2 with (mkAP (ap_rs q2) (PsOn true) ys) at 1 by (destruct q2; cbn in *; congruence).
        destruct (a_take md d m _); reflexivity.
    + rewrite HR in F1. apply okv_suffix in F1 as (c & F1 & ->).
      assert (Q2' : ap_state q2 = ap_state p' /\ ap_rest q2 = okv c ++ Val (Ok VNewPage) :: ys).
      { destruct Q2 as [[G1 G2]|(po' & G1 & G2 & G3)].
        - split; auto. rewrite F1 in G2. now apply cont_okv_eq.
        - exfalso. rewrite F3 in G1. destruct po, po'; discriminate. }
      destruct Q2' as [G1 G2].
      destruct (IH p' q2 ps c (before ++ us)) as (rs & b' & K & HT); auto; try lia.
      { rewrite F3. destruct po; cbn; eauto. }
      exists rs, b'. split; [rewrite app_assoc; exact K|]. intros m. rewrite ST, HT, after_cons. reflexivity.
Qed.

(** Only the settings that stay in force matter for the next page. *)
Definition same_kept (r s : RenderState) : Prop :=
  rs_ctx r = rs_ctx s /\ rs_on_time r = rs_on_time s /\ rs_off_time r = rs_off_time s /\ rs_jp r = rs_jp s /\ rs_jl r = rs_jl s
  /\ rs_font r = rs_font s /\ rs_font_vid r = rs_font_vid s /\ rs_char_spacing r = rs_char_spacing s.

Definition AtPage (p q : AP) : Prop :=
  p = q \/ (exists b c, ap_state p = PsOn b /\ ap_state q = PsOn c) /\ same_kept (ap_rs p) (ap_rs q) /\ ap_rest p = ap_rest q.

Lemma on_page_kept md d p q : AtPage p q ->
  MRel (fun x y => AtPage (fst x) (fst y) /\ snd x = snd y) (a_on_page md d p) (a_on_page md d q).
Proof.
  intros [->|(HS & HK & HR)]; [apply MRel_refl; intros; split; auto; now left|]. unfold a_on_page. cbv zeta. rewrite HR.
  apply (MRel_bind eq); [now apply MRel_refl|]. intros c c' <-. destruct c as [c|e]; [|cbn; split; auto; right; auto].
  assert (E : forall vs, update_page_state (rs_new d) vs (ap_rs p) = update_page_state (rs_new d) vs (ap_rs q)).
  { intros vs. unfold update_page_state. cbv zeta. f_equal. destruct HK as (K1 & K2 & K3 & K4 & K5 & K6 & K7 & K8).
    unfold set_span, set_line, set_line_spacing, set_rect. cbn. congruence. }
  rewrite E. apply (MRel_bind eq); [now apply MRel_refl|]. intros [rs u] ? <-. destruct u.
  - apply (MRel_bind eq); [now apply MRel_refl|]. intros [p1 r] ? <-. destruct r; cbn; split; auto; now left.
  - cbn. split; auto. right. cbn. splits; auto. unfold same_kept. splits; reflexivity.
Qed.

Lemma take_kept md d n : forall p q, AtPage p q -> a_take md d n p = a_take md d n q.
Proof.
  induction n as [|n IH]; intros p q H; cbn [a_take]; [reflexivity|].
  destruct H as [->|H]; [reflexivity|]. pose proof H as ((b & c & S1 & S2) & HK & HR).
  unfold a_next. rewrite S1, S2. pose proof (on_page_kept md d p q (or_intror H)) as HP.
  destruct (a_on_page md d p) as [[p1 r1]| |], (a_on_page md d q) as [[q1 r2]| |]; cbn in HP; try contradiction; cbn [bind fst snd]; try reflexivity.
  destruct HP as [HP ->]. now rewrite (IH _ _ HP).
Qed.

Lemma Kept_same d vs ws r s : SameSettings d vs ws -> Kept d vs r -> Kept d ws s -> same_kept r s.
Proof.
  intros (A1 & A2 & A3 & A4 & A5 & A6 & A7) (B1 & B2 & B3 & B4 & B5 & B6) (C1 & C2 & C3 & C4 & C5 & C6). unfold same_kept.
  assert (T : (rs_on_time r, rs_off_time r) = (rs_on_time s, rs_off_time s)) by congruence.
  assert (F : (rs_font r, rs_font_vid r) = (rs_font s, rs_font_vid s)) by congruence.
  injection T as T1 T2. injection F as F1 F2. splits; congruence.
Qed.

(** ** Messages *)

Lemma meaning_okv ms vs ts : Tokens ms ts -> Meaning ms (map Ok vs) -> map try_from ts = okv vs.
Proof.
  intros HT (ts' & HT' & HF). pose proof (Tokens_unique _ _ _ HT HT') as <-.
  apply denotes_vals in HF. rewrite HF. unfold okv. now rewrite map_map.
Qed.

Lemma message_follow md d ms1 vs ms2 ps : Lists d TNp -> Meaning ms1 (map Ok vs) -> Yields md d ms1 (map Ok ps) ->
  exists rs b xs, Reads (ms_new ms2) xs /\ Kept d vs rs
    /\ forall m, pages_take md d (List.length ps + m) (pages_new d (ms1 ++ lit "[np]" ++ ms2))
                 = after_pages ps (a_take md d m (mkAP rs (PsOn b) xs)).
Proof.
  intros HN HM (n & HY & HL). rewrite map_length in HL.
  destruct (Tokens_exists ms1) as (ts & HT). destruct (Tokens_exists ms2) as (us & HU).
  destruct (cont_np ms1 ts ms2 us HT HU) as (zs & HZ & HC).
  rewrite (meaning_okv ms1 vs ts HT HM) in HC. apply cont_okv_eq in HC.
  rewrite (take_start md d n ms1 _ (Reads_new _ _ HT)), (meaning_okv ms1 vs ts HT HM) in HY.
  destruct (follow md d (map try_from us) HN n (a_start d (okv vs)) (a_start d (map try_from zs)) ps vs []) as (rs & b & HK & HF); auto.
  - right. exists true. reflexivity.
  - apply Kept_new.
  - exists rs, b, (map try_from us). splits; auto using Reads_new.
    intros m. rewrite (take_start md d _ _ _ (Reads_new _ _ HZ)). apply HF.
Qed.

Lemma message_settings md d ms1 vs ps ms1' vs' ps' ms2 : Lists d TNp ->
  Meaning ms1 (map Ok vs) -> Yields md d ms1 (map Ok ps) -> Meaning ms1' (map Ok vs') -> Yields md d ms1' (map Ok ps') ->
  SameSettings d vs vs' -> forall n, exists r,
    pages_take md d (List.length ps + n) (pages_new d (ms1 ++ lit "[np]" ++ ms2)) = after_pages ps r
    /\ pages_take md d (List.length ps' + n) (pages_new d (ms1' ++ lit "[np]" ++ ms2)) = after_pages ps' r.
Proof.
  intros HN HM HY HM' HY' HS n.
  destruct (message_follow md d ms1 vs ms2 ps HN HM HY) as (rs & b & xs & HR & HK & H).
  destruct (message_follow md d ms1' vs' ms2 ps' HN HM' HY') as (rs' & b' & xs' & HR' & HK' & H').
  assert (xs' = xs) as -> by (eapply Reads_fun; eauto).
  exists (a_take md d n (mkAP rs (PsOn b) xs)). split; [apply H|]. rewrite H'. f_equal. apply take_kept. right.
  cbn. splits; eauto. destruct (Kept_same d vs vs' rs rs' HS HK HK') as (A1 & A2 & A3 & A4 & A5 & A6 & A7 & A8).
  unfold same_kept. splits; congruence.
Qed.

Lemma message_joined md d ms1 vs ps ms2 : Lists d TNp -> Meaning ms1 (map Ok vs) -> Yields md d ms1 (map Ok ps) ->
  SameSettings d vs [] -> forall n,
    pages_take md d (List.length ps + n) (pages_new d (ms1 ++ lit "[np]" ++ ms2))
    = after_pages ps (pages_take md d n (pages_new d ms2)).
Proof.
  intros HN HM HY HS n. destruct (message_follow md d ms1 vs ms2 ps HN HM HY) as (rs & b & xs & HR & HK & H).
  rewrite H, (take_start md d n ms2 _ HR). f_equal. apply take_kept. right. cbn. splits; eauto.
  exact (Kept_same d vs [] rs (rs_new d) HS HK (Kept_new d)).
Qed.
