(** Messages that grow by lines of text: pages and whole messages. *)

From Coq Require Import String.
From Verif Require Import Base Str Multi Color Raster Font Graphic Config Sign Render
  Spec_Multi Spec_Color Spec_Font Spec_Graphic Spec_Sign Spec_Render Spec_Layout Spec_Draw Spec_Page Spec_Safe Spec_Fail
  Spec_Pattern Spec_Fit
  Proofs_Str Proofs_Split Proofs_Norm Proofs_Font Proofs_Glyph Proofs_Sign Proofs_Build Proofs_Render Proofs_Pages
  Proofs_Horiz Proofs_Vert Proofs_Layout Proofs_Place
  Proofs_Draw Proofs_Page Proofs_Safe Proofs_Text Proofs_Fail Proofs_Verdict Proofs_Unique Proofs_Fit Proofs_Grow.
From Coq Require Import ZifyBool ZifyNat.
Ltac Zify.zify_post_hook ::= Z.div_mod_to_equations.
Open Scope list_scope.

Section Message.
Variable d : Dms.
Hypothesis HB : Built d.
Hypothesis HU : Usable d.
Hypothesis HFC : FontsInCells d.
Hypothesis HPD : PlaceableDefaults d.

Definition line_part (v : Value) : Prop := v = VNewLine None \/ exists t, v = VText t.

Lemma area_in r fs x y v : AreaG d r fs x y -> In v y -> In v x \/ line_part v.
Proof.
  intros [|pre post used f n H1 H2 H3 H4 H5 H6 H7 H8] I; auto. apply in_app_or in I as [I|I]; [left; apply in_or_app; auto|].
  apply in_app_or in I as [I|I]; [|left; apply in_or_app; auto].
  right. apply line_values_in in I as [->|(t & -> & _)]; unfold line_part; eauto.
Qed.

Lemma pgrow_in r fs x y v : PGrow d r fs x y -> In v y -> In v x \/ line_part v.
Proof.
  induction 1 as [r fs x y N1 N2 HA|r fs x y q x' y' N1 N2 HA HG IH]; intros I; [eapply area_in; eauto|].
  rewrite in_app_iff. apply in_app_or in I as [I|[I|I]].
  - apply (area_in _ _ _ _ _ HA) in I. tauto.
  - left. right. now left.
  - apply IH in I. cbn [In]. tauto.
Qed.

Lemma rendered_tags c vs p q : Rendered d (Accepted d) c vs p q -> forall u, In u vs -> ~ BadTag d u.
Proof.
  induction 1 as [c vs p q q' N G (_ & HD & _)|c vs r rest p q q' q'' N G (_ & HD & _) GR HR IH]; intros u I.
  - apply HD. exact I.
  - apply in_app_or in I as [I|[<-|I]]; auto.
    + apply HD. exact I.
    + intros B. inversion B; subst. auto.
Qed.

(** A page with its place in the message. *)
Record Ready (before0 before1 : list Value) : Prop := {
  rd_agree : agree before0 before1;
  rd_ok : Forall value_ok before1;
  rd_quiet : Forall quiet before1;
  rd_just : placeable d before1 }.

Lemma page_grown before0 before1 x y q e : Ready before0 before1 ->
  PGrow d (sign_rect d) (font_of d before1) x y -> Forall value_ok y -> Forall quiet x -> Forall quiet y ->
  PageAccepted d before0 x q -> PageFails d before1 y e -> False.
Proof.
  intros [R1 R2 R3 R4] HG HV HQx HQy (HS & HBk & HN & HEd & HP) F.
  destruct F as [a v b E Ha Hv|e Hb HF].
  - assert (I : In v y) by (rewrite E; apply in_elt). apply (pgrow_in _ _ _ _ _ HG) in I as [I|[->|(t & ->)]].
    + exact (HBk v I Hv).
    + inversion Hv.
    + inversion Hv.
  - refine (fails_grown d HB HU HFC HPD _ _ _ _ HF (mkPlace before0 x [] (sign_rect d)) x _ q _ _ HP _ _ _ _ _ _ _ _ _).
    + split; cbn [pl_earlier pl_page pl_upto pl_rect]; auto using agree_refl. eapply pgrow_agree; eauto.
    + unfold past_of. cbn [pl_earlier pl_upto pl_rect]. now rewrite app_nil_r.
    + split; reflexivity.
    + unfold place_ok. cbn [pl_earlier pl_page pl_upto]. auto.
    + unfold good_place. cbn [pl_rect]. split; [now apply rect_in_sign|]. cbn [sign_rect rx ry].
      split; right; exists 0; reflexivity.
    + unfold past_of. cbn [pl_earlier pl_upto]. now rewrite app_nil_r.
    + exact HQx.
    + exact HQy.
    + unfold past_of. cbn [pl_earlier pl_upto]. now rewrite app_nil_r.
    + intros r I. apply HEd. eapply pgrow_tr; eauto.
    + cbn [pl_upto text_rects]. rewrite <- (pgrow_rects d _ _ _ _ HG). lia.
Qed.

Lemma ready_next before0 before1 fs x y q : Ready before0 before1 -> PGrow d (sign_rect d) fs x y ->
  Forall value_ok y -> Forall quiet y -> PageAccepted d before0 x q -> Ready (before0 ++ x) (before1 ++ y).
Proof.
  intros [R1 R2 R3 R4] HG HV HQ (_ & _ & _ & _ & HP). split.
  - apply agree_app; auto. eapply pgrow_agree; eauto.
  - apply Forall_app. auto.
  - apply Forall_app. auto.
  - apply placeable_app; auto. intros u I B. apply (pgrow_in _ _ _ _ _ HG) in I as [I|[->|(t & ->)]].
    + exact (rendered_tags _ _ _ _ HP u I B).
    + inversion B.
    + inversion B.
Qed.

(** ** Messages *)

Inductive PagesGrow : Z * option Z -> list (list Value) -> list (list Value) -> Prop :=
| Pgs_nil fs : PagesGrow fs [] []
| Pgs_cons fs x y xs ys : no_page_break x -> no_page_break y -> PGrow d (sign_rect d) fs x y ->
    PagesGrow (in_force (says_font d) fs x) xs ys -> PagesGrow fs (x :: xs) (y :: ys).

Lemma rest_grown before pg r cut e : no_page_break pg -> (r = [] \/ exists r', r = Ok VNewPage :: r') ->
  (r <> [] -> Supports d VNewPage) -> (cut = true -> r <> []) -> Forall (Supports d) pg ->
  (forall f, ~ PageFails d before pg f) -> RestFails d before (map Ok pg ++ r) cut e -> False.
Proof.
  intros N R HS HC HSp HP F. destruct F as [vs x t e E Nv Sv HR|vs EC E Nv Sv|pg' e FP _ Sv _ HF].
  - symmetry in E. apply in_first in E as (v & -> & I); auto. refine (refused_excl d v e _ HR).
    destruct I as [I|[-> I]]; auto. rewrite Forall_forall in HSp. auto.
  - destruct R as [->|(r' & ->)]; [now apply (HC EC)|]. apply Nv.
    assert (I : In (Ok VNewPage) (map (@Ok Value SyntaxError) vs)) by (rewrite <- E; apply in_elt).
    apply in_map_iff in I as (v & Ev & Iv). injection Ev as ->. exact Iv.
  - assert (pg' = pg) as ->; [|exact (HP _ HF)].
    apply (FirstPage_fun _ _ _ FP). split; auto. destruct R as [->|(r' & ->)]; [left; apply app_nil_r|eauto].
Qed.

Lemma message_grown : forall pgs before0 before1 fs xs ys vs ps0 rest e,
  map Ok (closed pgs) ++ rest = map Ok vs -> Forall no_page_break pgs ->
  RestFails d (before1 ++ List.concat pgs) rest false e ->
  SplitPages vs ys -> Forall (Supports d) vs -> Forall value_ok vs -> Forall quiet vs -> Forall (Forall quiet) xs ->
  Ready before0 before1 -> fs = font_of d before1 -> PagesGrow fs xs ys ->
  EachPage d (PageAccepted d) before0 xs ps0 -> False.
Proof.
  induction pgs as [|pg pgs IH]; intros before0 before1 fs xs ys vs ps0 rest e E HN HF HS HV HO HQ HQx HR -> HG HE.
  - cbn [closed map List.concat app] in E. subst rest. rewrite app_nil_r in HF.
    destruct HS as [pg N|pg vs pgs' N HS].
    + inversion HG as [|? x ? xs' ? Nx Ny HGp HGr]; subst. apply Forall_cons_iff in HQx as [HQx _].
      apply each_hd in HE as (q & _ & _ & _ & HA & _). rewrite <- (app_nil_r (map Ok pg)) in HF.
      apply (rest_grown before1 pg [] false e); auto; [intros C; exfalso; now apply C|discriminate|].
      intros f Hf. now apply (page_grown before0 before1 x pg q f).
    + inversion HG as [|? x ? xs' ? Nx Ny HGp HGr]; subst. apply Forall_cons_iff in HQx as [HQx _].
      apply each_hd in HE as (q & _ & _ & _ & HA & _). rewrite map_app in HF. cbn [map] in HF.
      apply Forall_app in HV as [HV1 HV2]. apply Forall_app in HO as [HO1 _]. apply Forall_app in HQ as [HQ1 _].
      apply Forall_cons_iff in HV2 as [HVn _].
      apply (rest_grown before1 pg (Ok VNewPage :: map Ok vs) false e); eauto; [discriminate|].
      intros f Hf. now apply (page_grown before0 before1 x pg q f).
  - rewrite closed_map in E. apply Forall_cons_iff in HN as [Npg HN'].
    assert (exists vs2 ys2, vs = pg ++ VNewPage :: vs2 /\ ys = pg :: ys2 /\ SplitPages vs2 ys2
              /\ map Ok (closed pgs) ++ rest = map Ok vs2) as (vs2 & ys2 & -> & -> & HS2 & E2).
    { destruct HS as [pg' N'|pg' vs2 pgs2 N' HS].
      - exfalso. assert (I : In (Ok VNewPage) (map (@Ok Value SyntaxError) pg')) by (rewrite <- E; apply in_elt).
        apply in_map_iff in I as (v & Ev & Iv). injection Ev as ->. exact (N' Iv).
      - rewrite map_app in E. cbn [map] in E. apply first_cut in E as [-> E]; auto. exists vs2, pgs2. auto. }
    inversion HG as [|? x ? xs' ? Nx Ny HGp HGr]; subst. apply Forall_cons_iff in HQx as [HQx HQx'].
    apply each_hd in HE as (q & _ & ps2 & _ & HA & HE & _).
    apply Forall_app in HV as [_ HV]. apply Forall_cons_iff in HV as [_ HV].
    apply Forall_app in HO as [HO1 HO]. apply Forall_cons_iff in HO as [_ HO].
    apply Forall_app in HQ as [HQ1 HQ]. apply Forall_cons_iff in HQ as [_ HQ].
    refine (IH (before0 ++ x) (before1 ++ pg) _ xs' ys2 vs2 ps2 rest e E2 HN' _ HS2 HV HO HQ HQx' _ _ HGr HE).
    + cbn [List.concat] in HF. now rewrite app_assoc in HF.
    + eapply ready_next; eauto.
    + unfold font_of at 2. rewrite in_force_app. fold (font_of d before1).
      apply (pgrow_agree d _ _ _ _ HGp). split; reflexivity.
Qed.

Lemma durations_grown : forall xs ys fs before0 before1 F G ps0 ps1, PagesGrow fs xs ys -> agree before0 before1 ->
  EachPage d F before0 xs ps0 -> EachPage d G before1 ys ps1 -> map pg_duration ps1 = map pg_duration ps0.
Proof.
  induction xs as [|x xs IH]; intros ys fs before0 before1 F G ps0 ps1 HG A H K; inversion HG as [|? ? y ? ys' Nx Ny HGp HGr]; subst.
  - inversion H; subst. inversion K; subst. reflexivity.
  - assert (A' : agree (before0 ++ x) (before1 ++ y)) by (apply agree_app; auto; eapply pgrow_agree; eauto).
    assert (ET : times_of d (before0 ++ x) = times_of d (before1 ++ y)) by (apply A'; split; reflexivity).
    inversion H as [|? ? ? P l H1 H2 H3 H4|? ? ? P Q l H1 H2 H3 H4 H4w H4h H5 H6]; subst;
      inversion K as [|? ? ? P' l' K1 K2 K3 K4|? ? ? P' Q' l' K1 K2 K3 K4 K4w K4h K5 K6]; subst; rewrite ET in *; try lia.
    + cbn [map]. f_equal; [congruence|]. eapply IH; eauto.
    + cbn [map]. f_equal; [congruence|]. f_equal; [congruence|]. eapply IH; eauto.
Qed.

(** The pages of a message that grows. *)
Definition Grown (r : Rectangle) (fs : Z * option Z) (x y : list Value) : Prop :=
  exists x1 xs y1 ys, SplitPages x (x1 :: xs) /\ SplitPages y (y1 :: ys) /\ no_page_break x1 /\ no_page_break y1
    /\ PGrow d r fs x1 y1 /\ PagesGrow (in_force (says_font d) fs x1) xs ys.

Lemma within_parts vs : within_area vs -> no_page_break vs /\ no_text_rect vs.
Proof. intros H. split; [intros I; exact (H _ I Logic.I)|intros r I; exact (H _ I Logic.I)]. Qed.

Lemma grown_last r fs x y : within_area x -> within_area y -> AreaG d r fs x y -> Grown r fs x y.
Proof.
  intros Hx Hy HA. apply within_parts in Hx as [X1 X2], Hy as [Y1 Y2]. exists x, [], y, []. splits; auto; try now constructor.
Qed.

Lemma grown_page r fs x y x' y' : within_area x -> within_area y -> AreaG d r fs x y ->
  Grown (sign_rect d) (in_force (says_font d) fs x) x' y' -> Grown r fs (x ++ VNewPage :: x') (y ++ VNewPage :: y').
Proof.
  intros Hx Hy HA (x1 & xs & y1 & ys & S1 & S2 & N1 & N2 & HG & HP).
  apply within_parts in Hx as [X1 X2], Hy as [Y1 Y2]. exists x, (x1 :: xs), y, (y1 :: ys).
  splits; auto; now constructor.
Qed.

Lemma split_prefix a vs p ps : no_page_break a -> SplitPages vs (p :: ps) -> SplitPages (a ++ vs) ((a ++ p) :: ps).
Proof.
  intros N H. assert (HN : forall q, no_page_break q -> no_page_break (a ++ q)).
  { intros q Nq I. apply in_app_or in I as [I|I]; auto. }
  inversion H as [pg Np|pg rest pgs Np HS]; subst; [constructor; auto|]. rewrite app_assoc. constructor; auto.
Qed.

Lemma grown_rect r fs x y q x' y' : within_area x -> within_area y -> AreaG d r fs x y ->
  Grown (text_rect d q) (in_force (says_font d) fs x) x' y' ->
  Grown r fs (x ++ VTextRectangle q :: x') (y ++ VTextRectangle q :: y').
Proof.
  intros Hx Hy HA (x1 & xs & y1 & ys & S1 & S2 & N1 & N2 & HG & HP).
  apply within_parts in Hx as [X1 X2], Hy as [Y1 Y2].
  assert (HN : forall a b, no_page_break a -> no_page_break b -> no_page_break (a ++ VTextRectangle q :: b)).
  { intros a b Na Nb I. apply in_app_or in I as [I|[I|I]]; auto. discriminate I. }
  exists (x ++ VTextRectangle q :: x1), xs, (y ++ VTextRectangle q :: y1), ys. splits; auto.
  - change (x ++ VTextRectangle q :: x') with (x ++ [VTextRectangle q] ++ x'). rewrite app_assoc.
    change (x ++ VTextRectangle q :: x1) with (x ++ [VTextRectangle q] ++ x1). rewrite app_assoc.
    apply split_prefix; auto. apply (HN x []); auto. intros [].
  - change (y ++ VTextRectangle q :: y') with (y ++ [VTextRectangle q] ++ y'). rewrite app_assoc.
    change (y ++ VTextRectangle q :: y1) with (y ++ [VTextRectangle q] ++ y1). rewrite app_assoc.
    apply split_prefix; auto. apply (HN y []); auto. intros [].
  - now constructor.
  - rewrite in_force_app. cbn [in_force says_font]. exact HP.
Qed.

Lemma split_quiet vs pgs : SplitPages vs pgs -> Forall quiet vs -> Forall (Forall quiet) pgs.
Proof.
  induction 1 as [pg N|pg rest pgs N HS IH]; intros Q; [auto|].
  apply Forall_app in Q as [Q1 Q2]. apply Forall_cons_iff in Q2 as [_ Q2]. auto.
Qed.

(** A message that grows from one that is rendered is rendered. *)
Lemma grown_yields s0 s1 x y ps0 : Meaning s0 (map Ok x) -> Meaning s1 (map Ok y) ->
  Grown (sign_rect d) (default_font (d_multi_cfg d), None) x y ->
  Forall (Supports d) y -> Forall quiet x -> Forall quiet y ->
  Yields Debug d s0 (map Ok ps0) ->
  exists ps, Yields Debug d s1 (map Ok ps) /\ map pg_duration ps = map pg_duration ps0.
Proof.
  intros M0 M1 (x1 & xs & y1 & ys & S0 & S1 & N0 & N1 & HG & HGs) HS HQx HQy HY.
  pose proof (accepted_message d s0 ps0 HB HY) as (vs & pgs & M0' & S0' & HS0 & HE).
  assert (vs = x) as -> by (apply (@map_Ok_inj Value SyntaxError); eapply Meaning_fun; eauto).
  assert (pgs = x1 :: xs) as -> by (eapply split_unique; eauto).
  assert (HPG : PagesGrow (default_font (d_multi_cfg d), None) (x1 :: xs) (y1 :: ys)) by now constructor.
  assert (HST : forall ps f, MessageStops d s1 ps f -> False).
  { intros ps f (pgs & rest & cut & HM & HN & _ & _ & HF). pose proof M1 as HR. apply meaning_reading in HR.
    destruct (reading_fun _ _ _ _ _ HM HR) as [E ->].
    refine (message_grown pgs [] [] _ (x1 :: xs) (y1 :: ys) y ps0 rest f E HN HF S1 HS _ HQy _ _ eq_refl HPG HE).
    - exact (Meaning_oks_ok _ _ M1).
    - eapply split_quiet; eauto.
    - split; auto using agree_refl. }
  destruct (total_debug d s1) as [(ps & H)|[(n & ps & e & l & H)|(ps & H1 & H2)]].
  - exists ps. split; auto. pose proof (accepted_message d s1 ps HB H) as (vs & pgs & M1' & S1' & _ & HE1).
    assert (vs = y) as -> by (apply (@map_Ok_inj Value SyntaxError); eapply Meaning_fun; eauto).
    assert (pgs = y1 :: ys) as -> by (eapply split_unique; eauto).
    eapply durations_grown; eauto using agree_refl.
  - exfalso. apply (fail_message d) in H; auto. exact (HST _ _ H).
  - exfalso. apply (panic_message d s1 ps HB H1) in H2 as (f & _ & H2). exact (HST _ _ H2).
Qed.
End Message.
