(** Widths and filling of every pattern (C63). *)

From Coq Require Import String ZifyBool ZifyNat.
From Verif Require Import Base Str Multi Color Font Config Sign Pattern
  Spec_Multi Spec_Color Spec_Font Spec_Tfon Spec_Sign Spec_Render Spec_Layout Spec_Page Spec_Pattern Spec_Reached
  Proofs_Str Proofs_Split Proofs_Tag Proofs_Print Proofs_Norm Proofs_Iter Proofs_Sign Proofs_Pages Proofs_Place Proofs_Build Proofs_Blank
  Proofs_Pattern Proofs_Fill Proofs_Cut Proofs_Extract.
From Verif Require Spec_Fail Proofs_Fail.
Open Scope list_scope.
Ltac Zify.zify_post_hook ::= Z.div_mod_to_equations.

(** ** Endless areas *)

Lemma fillables_nonneg d l k : Fillables d l k -> 0 <= k.
Proof. induction 1; lia. Qed.

Lemma endless_nil d j : ~ EndlessAt d [] j.
Proof. intros (l1 & a & l2 & E & _). destruct l1; discriminate. Qed.

Lemma endless_head d a l : Fillable d a -> Endless d (ar_font a) -> EndlessAt d (a :: l) 0.
Proof. intros F E. exists [], a, l. splits; auto. constructor. Qed.

Lemma endless_other d a l j : ~ Fillable d a -> EndlessAt d (a :: l) j <-> EndlessAt d l j.
Proof.
  intros N. split.
  - intros (l1 & b & l2 & E & F & X & K). destruct l1 as [|c l1]; injection E as -> ->; [contradiction|].
    exists l1, b, l2. splits; auto. inversion K; subst; [auto|contradiction].
  - intros (l1 & b & l2 & -> & F & X & K). exists (a :: l1), b, l2. splits; auto. now constructor.
Qed.

Lemma endless_fill d a l j : Fillable d a -> ~ Endless d (ar_font a) -> EndlessAt d (a :: l) j <-> EndlessAt d l (j - 1).
Proof.
  intros FA NE. split.
  - intros (l1 & b & l2 & E & F & X & K). destruct l1 as [|c l1]; injection E as -> ->; [contradiction|].
    exists l1, b, l2. splits; auto. inversion K; subst; [contradiction|]. now replace (n + 1 - 1) with n by lia.
  - intros (l1 & b & l2 & -> & F & X & K). exists (a :: l1), b, l2. splits; auto.
    replace j with (j - 1 + 1) by lia. now constructor.
Qed.

Lemma endless_nonneg d l j : EndlessAt d l j -> 0 <= j.
Proof. intros (l1 & a & l2 & _ & _ & _ & K). eapply fillables_nonneg; eauto. Qed.

Lemma endless_app d l l2 j : EndlessAt d l j -> EndlessAt d (l ++ l2) j.
Proof. intros (l1 & a & l3 & -> & H). exists l1, a, (l3 ++ l2). rewrite <- app_assoc. auto. Qed.

Definition u16_areas (l : list Area) : Prop := Forall (fun a => u16_rect (ar_rect a)) l.

Lemma room_cases d a : Built d -> u16_rect (ar_rect a) ->
  (exists n, rect_lines d (ar_rect a) (ar_font a) = Val n /\ Room d a n /\ ~ Endless d (ar_font a))
  \/ (rect_lines d (ar_rect a) (ar_font a) = Hang /\ Endless d (ar_font a)).
Proof.
  intros HB Hr. destruct (Built_parts d HB) as (T & V & F).
  destruct (rect_lines_cases d (ar_rect a) (ar_font a) T F Hr) as [(n & En & Rn)|(En & X)]; [left|right; auto].
  exists n. splits; auto. intros X. apply (rect_lines_hang d (ar_rect a)) in X; auto. congruence.
Qed.

(** ** Widths *)

Lemma widths_tail md d l cut : forall i acc,
  widths_loop md d (map Val l ++ (if cut : bool then [Panic] else [])) i acc
  = (let! r := fill_widths md d (fills l) i acc in if cut then Panic else Val r).
Proof.
  induction l as [|x l IH]; intros i acc; [destruct cut; reflexivity|]. cbn [map app widths_loop bind].
  destruct x as [[v|r f]|e]; cbn [fills fill_widths]; auto.
  destruct (chk8 md (i + 1)); cbn [bind]; auto. destruct (rect_lines d r f); cbn [bind]; auto.
Qed.

Definition stuck_from (md : mode) (d : Dms) (l : list Area) (i : Z) : Prop :=
  exists j, EndlessAt d l j /\ (md = Release \/ i + j < 255).

Lemma widths_reached md d l : Built d -> u16_areas l -> forall i, 0 <= i -> (md = Debug -> i <= 255) ->
  forall acc, exists k, Fillables d l k /\
    let m := fill_widths md d (fills (flat_map (area_items d) l)) (i mod 256) acc in
    (stuck_from md d l i /\ m = Hang)
    \/ (~ stuck_from md d l i /\ md = Debug /\ 255 < i + k /\ m = Panic)
    \/ (~ stuck_from md d l i /\ (md = Debug -> i + k <= 255)
        /\ exists ws, Widths d i l ws /\ m = Val (acc ++ map numbered_u8 ws)).
Proof.
  intros HB HU. induction HU as [|a l Hr HU IH]; intros i Hi Hm acc.
  { exists 0. split; [constructor|]. right; right. splits; try lia.
    - intros (j & H & _). now apply endless_nil in H.
    - exists []. split; [constructor|]. cbn. now rewrite app_nil_r. }
  cbn [flat_map]. rewrite fills_app, fills_area. destruct (fillableb d a) eqn:EF.
  - pose proof EF as HF. apply fillableb_iff in HF. cbn [app fill_widths].
    destruct (fillables_exist d l) as (k & Hk). pose proof (fillables_nonneg _ _ _ Hk) as Hk0.
    assert ((md = Debug /\ i = 255) \/ chk8 md (i mod 256 + 1) = Val ((i + 1) mod 256) /\ (md = Debug -> i + 1 <= 255)) as [[-> ->]|[-> Hm']].
    { destruct md.
      - destruct (Z.eq_dec i 255) as [E|N]; [left; auto|right]. specialize (Hm eq_refl). split; [|lia].
        unfold chk8, chk. destruct ((0 <=? i mod 256 + 1) && (i mod 256 + 1 <? 256)) eqn:E; [f_equal|]; lia.
      - right. split; [|discriminate]. unfold chk8, chk.
        destruct ((0 <=? i mod 256 + 1) && (i mod 256 + 1 <? 256)) eqn:E; f_equal; lia. }
    + exists (k + 1). split; [now constructor|]. right; left. splits; auto; try lia.
      intros (j & H & [X|X]); [discriminate|]. apply endless_nonneg in H. lia.
    + cbn [bind]. destruct (room_cases d a HB Hr) as [(n & En & Rn & NE)|(En & X)]; rewrite En; cbn [bind].
      2:{ exists (k + 1). split; [now constructor|]. left. split; auto. exists 0. split; [now apply endless_head|].
          destruct md; auto. right. specialize (Hm' eq_refl). lia. }
      assert (ST : stuck_from md d (a :: l) i <-> stuck_from md d l (i + 1)).
      { split; intros (j & H & HX).
        - apply endless_fill in H; auto. exists (j - 1). split; auto. destruct HX; auto. right. lia.
        - exists (j + 1). split; [apply endless_fill; auto; now replace (j + 1 - 1) with j by lia|]. destruct HX; auto. right. lia. }
      destruct (IH (i + 1) ltac:(lia) Hm' (acc ++ push_lines n (rwidth (ar_rect a), ar_font a, i mod 256)))
        as (k' & Hk' & [[S E]|[(S & M & L & E)|(S & L & ws & W & E)]]); exists (k' + 1); (split; [now constructor|]); cbn zeta in *.
      * left. split; [now apply ST|exact E].
      * right; left. splits; auto; [now rewrite ST|lia].
      * right; right. splits; [now rewrite ST|lia|].
        exists (repeat (rwidth (ar_rect a), ar_font a, i) (Z.to_nat n) ++ ws). split; [now constructor|].
        rewrite E, map_app. unfold push_lines. rewrite <- app_assoc. do 3 f_equal. clear. induction (Z.to_nat n); cbn; congruence.
  - apply fillableb_false in EF. cbn [app].
    assert (ST : stuck_from md d (a :: l) i <-> stuck_from md d l i).
    { split; intros (j & H & HX); exists j; split; auto; eapply endless_other; eauto. }
    destruct (IH i Hi Hm acc) as (k & Hk & [[S E]|[(S & M & L & E)|(S & L & ws & W & E)]]); exists k; (split; [now constructor|]).
    + left. split; [now apply ST|exact E].
    + right; left. splits; auto. now rewrite ST.
    + right; right. splits; auto; [now rewrite ST|]. exists ws. split; [now constructor|exact E].
Qed.

Lemma fills_kept_body d rs vs : Kept d rs vs -> forall n rf, fills (pbody d n rf rs) = fills (pbody d n rf (map Ok vs)).
Proof.
  induction 1 as [|v rs vs HS HK IH|v rs vs HS HK IH|e rs vs HK IH]; intros n rf; [reflexivity| | |].
  - cbn [map pbody]. apply supp_iff in HS. rewrite HS. rewrite !fills_app. cbn [fills]. now rewrite IH.
  - cbn [pbody]. apply supp_false in HS. rewrite HS. cbn [fills]. auto.
  - cbn [pbody fills]. auto.
Qed.

Lemma pattern_widths_all md d ms rs cut vs l l' : Built d -> Spec_Fail.Reading ms rs cut -> Kept d rs vs ->
  PatternAreas d vs l -> Reached l cut l' -> WidthsAre md d l' cut (pat_widths md d ms).
Proof.
  intros HB HR HK HA HL. pose proof (kept_reading_ok d ms rs cut vs HR HK) as HV.
  pose proof (areas_shape d _ _ _ _ HB HA HV (u16_sign d HB)) as HG. pose proof (kept_supported d rs vs HK) as HS.
  assert (u16_areas l') as HU.
  { assert (u16_areas l) as X by (eapply Forall_impl; [|exact HG]; cbn; tauto).
    destruct cut; cbn [Reached] in HL; [|now subst]. destruct HL as (a & ->). now apply Forall_app in X as [X _]. }
  assert (E : pat_widths md d ms = (let! r := fill_widths md d (fills (flat_map (area_items d) l')) (0 mod 256) [] in if cut then Panic else Val r)).
  { unfold pat_widths. change (0 mod 256) with 0. destruct cut.
    - rewrite (pat_items_cut md d ms rs HR), (widths_tail md d _ true), (fills_kept_body d rs vs HK).
      destruct (pbody_areas d _ _ _ _ HA HS HV) as (l2 & a & E1 & ->). destruct HL as (b & E2). rewrite E1 in E2.
      apply app_inj_tail in E2 as [-> ->]. now rewrite fills_app, fills_vals, app_nil_r.
    - apply Proofs_Fail.meaning_reading in HR. cbn [Reached] in HL. subst l'.
      rewrite (pat_items_val md d ms rs HR), <- (app_nil_r (map Val _)), (widths_tail md d _ false), (fills_kept d rs vs HK).
      now rewrite (plist_areas d _ _ _ _ HA HS HV). }
  rewrite E. destruct (widths_reached md d l' HB HU 0 ltac:(lia) ltac:(lia) []) as (k & Hk & [[S X]|[(S & M & L & X)|(S & L & ws & W & X)]]);
    cbn zeta in X; rewrite X; cbn [bind].
  - apply Wa_stuck. exact S.
  - eapply Wa_many; eauto.
  - destruct cut; [now apply Wa_cut|]. eapply Wa_val; eauto.
Qed.

Lemma widths_are_fun md d l cut m m' : WidthsAre md d l cut m -> WidthsAre md d l cut m' -> m = m'.
Proof.
  intros H H'. destruct H, H'; try contradiction; try congruence; auto; subst;
    try (match goal with A : Fillables d l _, B : Fillables d l _ |- _ => pose proof (fillables_fun d l _ _ A B); subst end; exfalso;
      match goal with X : Debug = Debug -> _ |- _ => specialize (X eq_refl); lia end).
  do 2 f_equal. eapply widths_fun; eauto.
Qed.

(** ** Filling *)

Definition complete (l : list Area) : Prop := Forall (fun a => exists v, ar_end a = Some v) l.

Lemma areas_complete d r n vs l : Areas d r n vs l -> exists l' a, l = l' ++ [a] /\ complete l' /\ ar_end a = None.
Proof.
  induction 1 as [r n vs HW|r n vs rest l HW HA (l' & a & -> & C & E)|r n vs q rest l HW HA (l' & a & -> & C & E)].
  - exists [], (mkArea r n vs None). splits; auto. constructor.
  - exists (mkArea r n vs (Some VNewPage) :: l'), a. splits; auto. constructor; auto. eexists; reflexivity.
  - exists (mkArea r n vs (Some (VTextRectangle q)) :: l'), a. splits; auto. constructor; auto. eexists; reflexivity.
Qed.

Lemma fill_values d vs tail : forall fv lines ms, exists fv' lines' ms',
  fill_loop d (map Val (map (fun v => Ok (PVal v)) vs) ++ tail) fv lines ms = fill_loop d tail fv' lines' ms'.
Proof.
  induction vs as [|v vs IH]; intros fv lines ms; [eexists _, _, _; reflexivity|]. cbn [map app fill_loop bind].
  destruct v; apply IH.
Qed.

Lemma fill_item d x tail fv lines ms : (forall r f, x = PFill r f -> exists n, rect_lines d r f = Val n) ->
  exists fv' lines' ms', fill_loop d (Val (Ok x) :: tail) fv lines ms = fill_loop d tail fv' lines' ms'.
Proof.
  intros H. cbn [fill_loop bind]. destruct x as [v|r f].
  - destruct v; eexists _, _, _; reflexivity.
  - destruct (H r f eq_refl) as (n & ->). cbn [bind]. destruct (fill_lines _ true lines ms). eexists _, _, _. reflexivity.
Qed.

(** Up to the lines of an area. *)
Lemma fill_until d a rest tail fv lines ms :
  exists fv' lines' ms', fill_loop d (map Val (area_items d a ++ rest) ++ tail) fv lines ms
    = fill_loop d (map Val ((if fillableb d a then [Ok (PFill (ar_rect a) (ar_font a))] else [])
        ++ match ar_end a with
           | Some v => [Ok (PVal v)]
           | None => if supp d VNewPage then [] else [Err (SUnsupportedTag (display VNewPage))]
           end ++ rest) ++ tail) fv' lines' ms'.
Proof.
  unfold area_items. rewrite <- !app_assoc, map_app, <- app_assoc. apply fill_values.
Qed.

Lemma fill_complete d l tail : Built d -> u16_areas l -> complete l -> (forall j, ~ EndlessAt d l j) ->
  forall fv lines ms, exists fv' lines' ms',
    fill_loop d (map Val (flat_map (area_items d) l) ++ tail) fv lines ms = fill_loop d tail fv' lines' ms'.
Proof.
  intros HB HU. induction HU as [|a l Hr HU IH]; intros HC HE fv lines ms; [eexists _, _, _; reflexivity|].
  inversion HC as [|? ? (v & Ev) HC']; subst. cbn [flat_map].
  destruct (fill_until d a (flat_map (area_items d) l) tail fv lines ms) as (fv1 & lines1 & ms1 & ->). rewrite Ev.
  destruct (fillableb d a) eqn:EF; cbn [app map].
  - apply fillableb_iff in EF. destruct (room_cases d a HB Hr) as [(n & En & Rn & NE)|(_ & X)].
    2:{ exfalso. apply (HE 0). now apply endless_head. }
    destruct (fill_item d (PFill (ar_rect a) (ar_font a)) (Val (Ok (PVal v)) :: map Val (flat_map (area_items d) l) ++ tail) fv1 lines1 ms1)
      as (fv2 & lines2 & ms2 & ->). { intros r f E. injection E as <- <-. eauto. }
    destruct (fill_item d (PVal v) (map Val (flat_map (area_items d) l) ++ tail) fv2 lines2 ms2) as (fv3 & lines3 & ms3 & ->); [discriminate|].
    apply IH; auto. intros j H. apply (HE (j + 1)). apply endless_fill; auto. now replace (j + 1 - 1) with j by lia.
  - apply fillableb_false in EF.
    destruct (fill_item d (PVal v) (map Val (flat_map (area_items d) l) ++ tail) fv1 lines1 ms1) as (fv3 & lines3 & ms3 & ->); [discriminate|].
    apply IH; auto. intros j H. apply (HE j). now apply endless_other.
Qed.

Lemma first_endless d l : Built d -> u16_areas l ->
  (forall j, ~ EndlessAt d l j)
  \/ (exists j, EndlessAt d l j) /\ exists l1 a l2, l = l1 ++ a :: l2 /\ Fillable d a /\ rect_lines d (ar_rect a) (ar_font a) = Hang
       /\ forall j, ~ EndlessAt d l1 j.
Proof.
  intros HB HU. induction HU as [|a l Hr HU IH]; [left; intros j; apply endless_nil|].
  destruct (fillableb d a) eqn:EF.
  - apply fillableb_iff in EF. destruct (room_cases d a HB Hr) as [(n & En & Rn & NE)|(En & X)].
    + destruct IH as [IH|((j & Hj) & l1 & b & l2 & -> & F & E & N)].
      * left. intros j H. apply endless_fill in H; auto. now apply IH in H.
      * right. split; [exists (j + 1); apply endless_fill; auto; now replace (j + 1 - 1) with j by lia|].
        exists (a :: l1), b, l2. splits; auto. intros i H. apply endless_fill in H; auto. now apply N in H.
    + right. split; [exists 0; now apply endless_head|]. exists [], a, l. splits; auto. intros j. apply endless_nil.
  - apply fillableb_false in EF. destruct IH as [IH|((j & Hj) & l1 & b & l2 & -> & F & E & N)].
    + left. intros j H. apply endless_other in H; auto. now apply IH in H.
    + right. split; [exists j; now apply endless_other|]. exists (a :: l1), b, l2. splits; auto.
      intros i H. apply endless_other in H; auto. now apply N in H.
Qed.

(** Areas that are complete, but for the last one perhaps. *)
Definition nearly_complete (l : list Area) : Prop := complete (removelast l).

Lemma fill_endless d l tail fv lines ms : Built d -> u16_areas l -> nearly_complete l -> (exists j, EndlessAt d l j) ->
  fill_loop d (map Val (flat_map (area_items d) l) ++ tail) fv lines ms = Hang.
Proof.
  intros HB HU HC (j & Hj). destruct (first_endless d l HB HU) as [N|(_ & l1 & a & l2 & -> & F & E & N)]; [now apply N in Hj|].
  assert (complete l1) as C1.
  { unfold nearly_complete in HC. rewrite removelast_app in HC by discriminate. now apply Forall_app in HC as [HC _]. }
  apply Forall_app in HU as [HU1 HU2]. rewrite flat_map_app, map_app, <- app_assoc.
  destruct (fill_complete d l1 (map Val (flat_map (area_items d) (a :: l2)) ++ tail) HB HU1 C1 N fv lines ms) as (fv1 & lines1 & ms1 & ->).
  cbn [flat_map]. destruct (fill_until d a (flat_map (area_items d) l2) tail fv1 lines1 ms1) as (fv2 & lines2 & ms2 & ->).
  apply fillableb_iff in F. rewrite F. cbn [app map fill_loop bind]. now rewrite E.
Qed.

Lemma plist_prefix d rs2 rs1 : forall n rf, exists n' rf', plist d n rf (rs1 ++ rs2) = pbody d n rf rs1 ++ plist d n' rf' rs2.
Proof.
  induction rs1 as [|[v|e] rs1 IH]; intros n rf; [exists n, rf; reflexivity| |].
  - cbn [app plist pbody]. destruct (supp d v).
    + destruct (IH (next_font d n v) (next_rf d n rf v)) as (n' & rf' & ->). exists n', rf'. now rewrite <- app_assoc.
    + destruct (IH n rf) as (n' & rf' & ->). exists n', rf'. reflexivity.
  - cbn [app plist pbody]. destruct (IH n rf) as (n' & rf' & ->). exists n', rf'. reflexivity.
Qed.

Lemma pbody_prefix d rs2 rs1 : forall n rf, exists n' rf', pbody d n rf (rs1 ++ rs2) = pbody d n rf rs1 ++ pbody d n' rf' rs2.
Proof.
  induction rs1 as [|[v|e] rs1 IH]; intros n rf; [exists n, rf; reflexivity| |].
  - cbn [app pbody]. destruct (supp d v).
    + destruct (IH (next_font d n v) (next_rf d n rf v)) as (n' & rf' & ->). exists n', rf'. now rewrite <- app_assoc.
    + destruct (IH n rf) as (n' & rf' & ->). exists n', rf'. reflexivity.
  - cbn [app pbody]. destruct (IH n rf) as (n' & rf' & ->). exists n', rf'. reflexivity.
Qed.

Lemma unfit_split d rs : (exists vs, rs = map Ok vs /\ Forall (Supports d) vs)
  \/ exists vs x rest, rs = map Ok vs ++ x :: rest /\ Forall (Supports d) vs /\ Unfit d x.
Proof.
  induction rs as [|[v|e] rs IH]; [left; exists []; auto| |].
  - destruct (supp d v) eqn:ES.
    + apply supp_iff in ES. destruct IH as [(vs & -> & H)|(vs & x & rest & -> & H & U)].
      * left. exists (v :: vs). auto.
      * right. exists (v :: vs), x, rest. auto.
    + apply supp_false in ES. right. exists [], (Ok v), rs. auto.
  - right. exists [], (Err e), rs. splits; auto. exact I.
Qed.

(** The items of a pattern with values [vs] and then a piece that does not fit. *)
Lemma items_unfit md d ms vs x rest cut : Spec_Fail.Reading ms (map Ok vs ++ x :: rest) cut -> Unfit d x ->
  exists e tail, pat_items md d ms = map Val (pbody d (default_font (d_multi_cfg d))
      (Some (sign_rect d, default_font (d_multi_cfg d))) (map Ok vs)) ++ Val (Err e) :: tail.
Proof.
  intros HR HX.
  assert (P : forall n rf, exists e t, plist d n rf (x :: rest) = Err e :: t).
  { intros n rf. destruct x as [v|e]; cbn [plist]; [|eauto]. cbn [Unfit] in HX. apply supp_false in HX. rewrite HX. eauto. }
  assert (Q : forall n rf, exists e t, pbody d n rf (x :: rest) = Err e :: t).
  { intros n rf. destruct x as [v|e]; cbn [pbody]; [|eauto]. cbn [Unfit] in HX. apply supp_false in HX. rewrite HX. eauto. }
  destruct cut.
  - rewrite (pat_items_cut md d ms _ HR).
    destruct (pbody_prefix d (x :: rest) (map Ok vs) (default_font (d_multi_cfg d)) (Some (sign_rect d, default_font (d_multi_cfg d)))) as (n' & rf' & ->).
    destruct (Q n' rf') as (e & t & ->). exists e, (map Val t ++ [Panic]). rewrite map_app, <- app_assoc. reflexivity.
  - apply Proofs_Fail.meaning_reading in HR. rewrite (pat_items_val md d ms _ HR).
    destruct (plist_prefix d (x :: rest) (map Ok vs) (default_font (d_multi_cfg d)) (Some (sign_rect d, default_font (d_multi_cfg d)))) as (n' & rf' & ->).
    destruct (P n' rf') as (e & t & ->). exists e, (map Val t). rewrite map_app. reflexivity.
Qed.

Lemma reading_ok ms rs cut : Spec_Fail.Reading ms rs cut -> forall vs rest, rs = map Ok vs ++ rest -> Forall value_ok vs.
Proof.
  intros (ts & more & _ & HD & _). induction HD as [|t r ts rs H HD IH]; intros vs rest E.
  - destruct vs; [constructor|discriminate].
  - destruct vs as [|v vs]; [constructor|]. cbn [map app] in E. injection E as -> E. constructor; [|eauto].
    apply Parsable_ok. eapply TokenDenotes_parsable; eauto.
Qed.

Lemma pattern_fill_all md d ms rs cut lines : Built d -> Spec_Fail.Reading ms rs cut ->
  FillIs d rs cut lines (pat_fill md d ms lines).
Proof.
  intros HB HR.
  assert (X : exists vs rest, rs = map Ok vs ++ rest /\ Forall (Supports d) vs
            /\ (rest = [] \/ exists x r, rest = x :: r /\ Unfit d x)).
  { destruct (unfit_split d rs) as [(vs & -> & H)|(vs & x & rest & -> & H & U)].
    - exists vs, []. rewrite app_nil_r. auto.
    - exists vs, (x :: rest). splits; auto. right. eauto. }
  destruct X as (vs & rest & Ers & HS & HX).
  assert (FP : FitPart d rs vs rest) by (unfold FitPart; auto).
  pose proof (reading_ok _ _ _ HR vs rest Ers) as HV.
  destruct (Areas_exist d (List.length vs) vs (le_n _) (sign_rect d) (default_font (d_multi_cfg d))) as [l HA].
  assert (u16_areas l) as HU.
  { pose proof (areas_shape d _ _ _ _ HB HA HV (u16_sign d HB)) as HG. eapply Forall_impl; [|exact HG]; cbn; tauto. }
  destruct (areas_complete _ _ _ _ _ HA) as (l' & a & El & HC & Ea).
  destruct (pbody_areas d _ _ _ _ HA HS HV) as (l2 & a2 & El2 & EB). rewrite El in El2. apply app_inj_tail in El2 as [<- <-].
  assert (u16_areas l') as HU' by (rewrite El in HU; now apply Forall_app in HU as [HU _]).
  (* before the last area *)
  assert (PRE : forall tail items, items = map Val (flat_map (area_items d) l' ++ map (fun v => Ok (PVal v)) (ar_values a)) ++ tail ->
    ((exists j, EndlessAt d l' j) /\ fill_loop d items None lines [] = Hang)
    \/ (forall j, ~ EndlessAt d l' j) /\ exists fv' lines' ms', fill_loop d items None lines [] = fill_loop d tail fv' lines' ms').
  { intros tail items ->. rewrite map_app, <- app_assoc. destruct (first_endless d l' HB HU') as [N|(Y & _)].
    - right. split; auto. destruct (fill_complete d l' (map Val (map (fun v => Ok (PVal v)) (ar_values a)) ++ tail) HB HU' HC N None lines [])
        as (fv1 & lines1 & ms1 & ->). apply fill_values.
    - left. split; auto. apply fill_endless; auto. unfold nearly_complete.
      assert (forall m, complete m -> complete (removelast m)) as Z; [|now apply Z].
      clear. induction m as [|x m IH]; intros H; [constructor|]. inversion H; subst. destruct m; [constructor|].
      change (removelast (x :: a :: m)) with (x :: removelast (a :: m)). constructor; [assumption|now apply IH]. }
  destruct HX as [->|(x & r & -> & HX)].
  - rewrite app_nil_r in Ers. subst rs. destruct cut.
    + unfold pat_fill. destruct (PRE [Panic] (pat_items md d ms)) as [[(j & Y) E]|[N (fv1 & lines1 & ms1 & E)]].
      { now rewrite (pat_items_cut md d ms _ HR), EB. }
      * rewrite E. eapply (Fi_stuck d _ _ _ vs [] l l' j); auto. exists a. auto.
      * rewrite E. eapply (Fi_cut d _ _ _ vs l l'); auto. exists a. auto.
    + destruct (first_endless d l HB HU) as [N|(Y & _)].
      * destruct (supp d VNewPage) eqn:NP.
        -- apply lists_np in NP. pose proof HR as HM. apply Proofs_Fail.meaning_reading in HM.
           assert (Forall (area_good d) l) as HG.
           { pose proof (areas_shape d _ _ _ _ HB HA HV (u16_sign d HB)) as HG. rewrite Forall_forall in *. intros b Ib. destruct (HG b Ib) as [G1 G2].
             unfold area_good. splits; auto. intros Fb X. apply in_split in Ib as (l3 & l4 & E). destruct (fillables_exist d l3) as (j & Hj).
             apply (N j). exists l3, b, l4. auto. }
           destruct (fill_areas d l HB HG NP [] None lines [] eq_refl) as (s & HF & E).
           unfold pat_fill. rewrite (pat_items_val md d ms _ HM), (plist_areas d _ _ _ _ HA HS HV), E. eapply Fi_val; eauto.
        -- apply supp_false in NP. pose proof HR as HM. apply Proofs_Fail.meaning_reading in HM.
           unfold pat_fill. rewrite (pat_items_val md d ms _ HM), (plist_areas d _ _ _ _ HA HS HV).
           assert (~ Lists d TNp) as NL. { rewrite <- lists_np. apply supp_false in NP. congruence. }
           assert (E : fill_loop d (map Val (flat_map (area_items d) l)) None lines [] = Val []).
           { destruct (PRE [Val (Err (SUnsupportedTag (display VNewPage)))] (map Val (flat_map (area_items d) l))) as [[(j & Y) E]|[_ (fv1 & lines1 & ms1 & E)]].
             - rewrite El, flat_map_app. cbn [flat_map]. rewrite app_nil_r. unfold area_items at 2. rewrite Ea. apply supp_false in NP. rewrite NP.
               assert (fillableb d a = false) as ->. { unfold fillableb. rewrite Ea, NP. now rewrite andb_false_r. }
               cbn [app]. rewrite !map_app, <- !app_assoc. reflexivity.
             - exfalso. apply (N j). rewrite El. now apply endless_app.
             - rewrite E. reflexivity. }
           rewrite E. eapply Fi_no_np; eauto.
      * assert (pat_fill md d ms lines = Hang) as ->.
        { pose proof HR as HM. apply Proofs_Fail.meaning_reading in HM.
          unfold pat_fill. rewrite (pat_items_val md d ms _ HM), (plist_areas d _ _ _ _ HA HS HV), <- (app_nil_r (map Val _)).
          apply fill_endless; auto. unfold nearly_complete. rewrite El, removelast_last. exact HC. }
        destruct Y as (j & Y). eapply (Fi_stuck d _ _ _ vs [] l l j); auto. reflexivity.
  - subst rs. destruct (items_unfit md d ms vs x r cut HR HX) as (e & tail & EI). unfold pat_fill.
    destruct (PRE (Val (Err e) :: tail) (pat_items md d ms)) as [[(j & Y) E]|[N (fv1 & lines1 & ms1 & E)]].
    { now rewrite EI, EB. }
    + rewrite E. eapply (Fi_stuck d _ _ _ vs (x :: r) l l' j); auto. exists a. auto.
    + rewrite E. cbn [fill_loop bind]. eapply (Fi_unfit d _ _ _ vs (x :: r) l l'); auto; [exists a; auto|discriminate].
Qed.

Lemma fit_fun d rs vs rest vs' rest' : FitPart d rs vs rest -> FitPart d rs vs' rest' -> vs = vs' /\ rest = rest'.
Proof.
  intros (-> & HS & HX) (E & HS' & HX'). revert vs' E HS'. induction HS as [|v vs Hv HS IH]; intros vs' E HS'.
  - destruct HS' as [|v' vs' Hv' HS']; [auto|]. cbn [map app] in E. subst rest. destruct HX as [HX|(x & r & E & U)]; [discriminate|].
    injection E as <- _. cbn in U. contradiction.
  - destruct HS' as [|v' vs' Hv' HS']; cbn [map app] in E.
    + subst rest'. destruct HX' as [HX'|(x & r & E & U)]; [discriminate|]. injection E as <- _. cbn in U. contradiction.
    + injection E as <- E. destruct (IH vs' E HS') as [-> ->]. auto.
Qed.

Lemma reached_fun l cut l1 l2 : Reached l cut l1 -> Reached l cut l2 -> l1 = l2.
Proof.
  destruct cut; cbn [Reached]; [|congruence]. intros (a & ->) (b & E). now apply app_inj_tail in E as [-> _].
Qed.

Lemma fill_is_fun d rs cut lines m m' : FillIs d rs cut lines m -> FillIs d rs cut lines m' -> m = m'.
Proof.
  intros H H'. destruct H as [vs rest l l' j F A R E|vs rest l l' F A R N NR|vs l l' F A R N C|vs l F A N C L|vs l s F A N C L S];
    destruct H' as [vs2 rest2 l2 l2' j2 F2 A2 R2 E2|vs2 rest2 l2 l2' F2 A2 R2 N2 NR2|vs2 l2 l2' F2 A2 R2 N2 C2|vs2 l2 F2 A2 N2 C2 L2|vs2 l2 s2 F2 A2 N2 C2 L2 S2];
    auto; destruct (fit_fun _ _ _ _ _ _ F F2) as [EV ER]; subst vs2; try subst rest; try subst rest2; try subst cut;
    pose proof (Areas_fun _ _ _ _ _ A _ A2) as EL; subst l2; cbn [broken_off] in *;
    try congruence;
    try (cbn [Reached] in *; subst; exfalso; match goal with N : forall j, ~ EndlessAt d ?x j, E : EndlessAt d ?x _ |- _ => now apply N in E end);
    try (pose proof (reached_fun _ _ _ _ R R2); subst; exfalso; match goal with N : forall j, ~ EndlessAt d ?x j, E : EndlessAt d ?x _ |- _ => now apply N in E end).
  f_equal. eapply filled_fun; eauto.
Qed.
