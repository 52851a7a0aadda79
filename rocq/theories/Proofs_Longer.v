(** Proofs for C87. *)

From Coq Require Import ZifyBool ZifyNat Lia.
From Verif Require Import Base Str Multi Color Raster Font Graphic Config Sign Render
  Spec_Multi Spec_Color Spec_Font Spec_Graphic Spec_Sign Spec_Render Spec_Layout Spec_Draw Spec_Page Spec_Safe Spec_Fail Spec_Below Spec_Beside Spec_Apart Spec_Longer
  Proofs_Str Proofs_Norm Proofs_Font Proofs_Graphic Proofs_Sign Proofs_Render Proofs_Pages Proofs_Layout
  Proofs_Page Proofs_Orderly Proofs_Modes Proofs_Safe Proofs_Text Proofs_Fail Proofs_Verdict Proofs_First Proofs_Unique Proofs_Below Proofs_Beside Proofs_Apart.
Open Scope list_scope.

Lemma each_cut d F pgs : forall before rest ps, EachPage d F before (pgs ++ rest) ps ->
  exists ps1 ps2, ps = ps1 ++ ps2 /\ EachPage d F before pgs ps1 /\ EachPage d F (before ++ List.concat pgs) rest ps2
    /\ List.length ps1 = shown_for d before pgs.
Proof.
  induction pgs as [|pg pgs IH]; intros before rest ps H; cbn [app] in H.
  - exists [], ps. cbn. rewrite app_nil_r. splits; auto. constructor.
  - cbn [shown_for List.concat]. rewrite app_assoc.
    inversion H as [|? ? ? P l K1 K2 K3 K4|? ? ? P Q l K1 K2 K3 K4 K5 K6 K7 K8]; subst.
    + destruct (IH _ _ _ K4) as (p1 & p2 & -> & A & B & L). exists (P :: p1), p2. splits; auto.
      * constructor; auto.
      * replace (0 <? _) with false by lia. cbn [List.length]. lia.
    + destruct (IH _ _ _ K8) as (p1 & p2 & -> & A & B & L). exists (P :: Q :: p1), p2. splits; auto.
      * apply Ep_on_off; auto.
      * replace (0 <? _) with true by lia. cbn [List.length]. lia.
Qed.

Lemma each_first d F before pg pgs ps : EachPage d F before (pg :: pgs) ps ->
  exists p r, ps = p :: r /\ F before pg (pg_raster p) /\ pg_duration p = fst (times_of d (before ++ pg)).
Proof. inversion 1; subst; eauto. Qed.

Lemma at_page d ms pgs pg ps : Built d -> HasPage ms pgs pg -> Yields Debug d ms (map Ok ps) ->
  exists ps1 p r, ps = ps1 ++ p :: r /\ List.length ps1 = shown_for d [] pgs
    /\ EachPage d (PageShown d (TextsShown d)) [] pgs ps1
    /\ PageShown d (TextsShown d) (List.concat pgs) pg (pg_raster p)
    /\ pg_duration p = fst (times_of d (List.concat pgs ++ pg)).
Proof.
  intros HB (vs & rest & M & SP) Y. apply pictures in Y as (vs' & pgs' & M' & SP' & EP); auto.
  rewrite <- (map_Ok_inj _ _ (Meaning_fun _ _ _ M M')) in SP'. rewrite (split_fun _ _ _ SP' SP) in EP.
  apply each_cut in EP as (ps1 & ps2 & -> & E1 & E2 & L). apply each_first in E2 as (p & r & -> & H & D).
  cbn [app] in H, D. exists ps1, p, r. auto.
Qed.

Lemma grown_both md d ms ms' pgs fr vs u w ps ps' (P : Z -> Z -> rgb -> Prop) :
  Built d -> (md = Release -> ~ Wraps d ms /\ ~ Wraps d ms') ->
  HasPage ms pgs (fr ++ vs ++ u) -> HasPage ms' pgs (fr ++ vs ++ w) ->
  Front fr -> no_text_rect vs -> Forall still u -> Forall still w ->
  Yields md d ms (map Ok ps) -> Yields md d ms' (map Ok ps') ->
  (forall r r' q q', SameImage r r' -> TextsShown d (place_in d (List.concat pgs) fr vs) (vs ++ u) r q ->
     TextsShown d (place_in d (List.concat pgs) fr vs) (vs ++ w) r' q' ->
     r_width q' = r_width q /\ r_height q' = r_height q
     /\ forall x y, on_raster q x y -> r_pixel q' x y = r_pixel q x y \/ P x y (r_pixel q' x y)) ->
  GrownAt (shown_for d [] pgs) P ps ps'.
Proof.
  intros HB HW H H' HF HT HU HA Y Y' HP.
  apply yields_debug in Y; [|auto|intros E; exact (proj1 (HW E))].
  apply yields_debug in Y'; [|auto|intros E; exact (proj2 (HW E))].
  destruct (at_page d ms pgs _ ps HB H Y) as (a & p & r & -> & L & EA & S & D).
  destruct (at_page d ms' pgs _ ps' HB H' Y') as (a' & p' & r' & -> & L' & EA' & S' & D').
  unfold GrownAt. rewrite <- L at 1. rewrite <- L' at 1.
  rewrite !firstn_app, !firstn_all, !Nat.sub_diag. cbn [firstn]. rewrite !app_nil_r. split.
  { refine (each_same d _ _ _ _ _ EA _ EA'). apply page_same. auto. }
  destruct (shown_both d _ fr vs u w _ _ HF HT HU HA S S') as (x & x' & SI & T & T').
  destruct (HP _ _ _ _ SI T T') as (Q1 & Q2 & Q3).
  exists p, p'. splits; auto.
  - rewrite <- L, nth_error_app2, Nat.sub_diag by lia. reflexivity.
  - rewrite <- L', nth_error_app2, Nat.sub_diag by lia. reflexivity.
  - rewrite D, D'. pose proof (added_times d u HU (List.concat pgs ++ fr ++ vs)) as B.
    pose proof (added_times d w HA (List.concat pgs ++ fr ++ vs)) as B'. rewrite <- !app_assoc in B, B'. now rewrite B, B'.
Qed.

Lemma grown md d ms ms' pgs fr vs ws ps ps' (P : Z -> Z -> rgb -> Prop) :
  Built d -> (md = Release -> ~ Wraps d ms /\ ~ Wraps d ms') ->
  HasPage ms pgs (fr ++ vs) -> HasPage ms' pgs (fr ++ vs ++ ws) ->
  Front fr -> no_text_rect vs -> Forall still ws ->
  Yields md d ms (map Ok ps) -> Yields md d ms' (map Ok ps') ->
  (forall r r' q q', SameImage r r' -> TextsShown d (place_in d (List.concat pgs) fr vs) vs r q ->
     TextsShown d (place_in d (List.concat pgs) fr vs) (vs ++ ws) r' q' ->
     r_width q' = r_width q /\ r_height q' = r_height q
     /\ forall x y, on_raster q x y -> r_pixel q' x y = r_pixel q x y \/ P x y (r_pixel q' x y)) ->
  GrownAt (shown_for d [] pgs) P ps ps'.
Proof.
  intros HB HW H H' HF HT HA Y Y' HP.
  apply (grown_both md d ms ms' pgs fr vs [] ws ps ps' P); auto; rewrite app_nil_r; auto.
Qed.

Section Ways.
Variables (md : mode) (d : Dms) (ms ms' : str) (pgs : list (list Value)) (fr vs ws : list Value) (ps ps' : list Page).
Hypothesis HB : Built d.
Hypothesis HW : md = Release -> ~ Wraps d ms /\ ~ Wraps d ms'.
Hypothesis H : HasPage ms pgs (fr ++ vs).
Hypothesis H' : HasPage ms' pgs (fr ++ vs ++ ws).
Hypothesis Y : Yields md d ms (map Ok ps).
Hypothesis Y' : Yields md d ms' (map Ok ps').
Notation e := (List.concat pgs).

Lemma longer_below : LinesBelow d e fr vs ws ->
  GrownAt (shown_for d [] pgs)
    (fun _ y k => exists t, AddedColor d e fr vs ws t k /\ BelowAll d (texts d (place_in d e fr vs) [] vs) y) ps ps'.
Proof.
  intros ((HF & HT & HO) & HJ & HN & HA).
  apply (grown md d ms ms' pgs fr vs ws); auto; [exact (Forall_impl _ adds_still HA)|].
  intros r r' q q' SI T T'.
  destruct (texts_below d (place_in d e fr vs) vs ws r r' q q' HB HJ HN HA HO SI T T') as (A & B & C).
  splits; auto. intros x y O. destruct (C x y O) as [E|(t & I & E & K)]; [now left|right].
  exists t. split; [split; [exact I|exact E]|exact K].
Qed.

Lemma longer_behind : TextBehind d e fr vs ws ->
  GrownAt (shown_for d [] pgs)
    (fun x _ k => exists t, AddedColor d e fr vs ws t k /\ RightOfRun d (texts d (place_in d e fr vs) [] vs) t x) ps ps'.
Proof.
  intros ((HF & HT & HO) & HJ & HN & HA). rewrite app_assoc in HJ.
  apply (grown md d ms ms' pgs fr vs ws); auto; [exact (Forall_impl _ adds_still (beside_adds ws HA))|].
  intros r r' q q' SI T T'.
  destruct (texts_beside d (place_in d e fr vs) vs ws r r' q q' HB HJ HN HA HO SI T T') as (A & B & C).
  splits; auto. intros x y O. destruct (C x y O) as [E|(t & I & E & K)]; [now left|right].
  exists t. split; [split; [exact I|exact E]|exact K].
Qed.

Lemma longer_apart : LaterBlock d e fr vs ws \/ LaterRun d e fr vs ws ->
  GrownAt (shown_for d [] pgs) (fun _ _ k => exists t, AddedColor d e fr vs ws t k) ps ps'.
Proof.
  intros [((HF & HT & HO) & j & l & E & HL & R)|((HF & HT & HO) & HV & j & l & E & HL & R)].
  - apply (grown md d ms ms' pgs fr vs ws); auto.
    { subst ws. constructor; [exact I|exact (Forall_impl _ adds_still HL)]. }
    intros r r' q q' SI T T'.
    apply (texts_block d (place_in d e fr vs) vs ws r r' q q'); auto.
    { apply block_apart; [exact (orderly_front d _ _ _ HO)|]. exists j, l. splits; auto.
      cbn [place_in pl_earlier pl_upto]. rewrite <- !app_assoc. exact R. }
  - apply (grown md d ms ms' pgs fr vs ws); auto.
    { subst ws. apply run_still; auto. }
    intros r r' q q' SI T T'.
    apply (texts_run d (place_in d e fr vs) vs ws r r' q q'); auto.
    { exists j, l. splits; auto. cbn [place_in pl_earlier pl_upto]. rewrite <- !app_assoc. exact R. }
    { exact (orderly_front d _ _ _ HO). }
Qed.
End Ways.
