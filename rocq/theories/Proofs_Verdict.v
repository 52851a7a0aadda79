(** Proofs for C55: a message is rendered exactly when nothing is wrong with it. *)

From Coq Require Import ZifyBool ZifyNat String.
From Verif Require Import Base Str Multi Color Raster Font Graphic Config Sign Render
  Spec_Multi Spec_Color Spec_Font Spec_Graphic Spec_Sign Spec_Render Spec_Layout Spec_Draw Spec_Page Spec_Safe Spec_Fail
  Proofs_Str Proofs_Split Proofs_Norm Proofs_Sign Proofs_Render Proofs_Pages Proofs_Horiz Proofs_Vert Proofs_Place Proofs_Draw Proofs_Page Proofs_Safe Proofs_Text Proofs_Fail.
Open Scope list_scope.
Ltac Zify.zify_post_hook ::= Z.div_mod_to_equations.

(** ** Lines as counted and as numbered *)

(** When every line has text of the line above before it, lines are counted as
    they are numbered. *)
Lemma too_high_tall d all s : Stacked all -> In s all -> (TooHigh d all s <-> TooTall d all s).
Proof.
  intros HS I. split.
  - intros (block & ls & h & PB & C & SH & L). pose proof (Picked_fun _ _ _ _ PB (block_picked all s)) as ->.
    exists ls, h. splits; auto. now apply counted_block.
  - intros (ls & h & BL & SH & L). destruct (counted_total (block_of all s)) as (ls' & C).
    { intros t J. apply filter_In in J as [J _]. apply in_split in J as (a & b & ->). apply (HS a t b eq_refl). }
    pose proof (BlockLines_fun _ _ _ _ I BL (counted_block all s ls' HS C)) as ->.
    exists (block_of all s), ls', h. splits; auto. apply block_picked.
Qed.

(** ** Tags *)

Definition sized (p q : Raster rgb) : Prop := r_width q = r_width p /\ r_height q = r_height p.

Lemma sized_refl p : sized p p. Proof. split; reflexivity. Qed.
Lemma sized_sym p q : sized p q -> sized q p. Proof. intros [H1 H2]. split; auto. Qed.
Lemma sized_trans p q r : sized p q -> sized q r -> sized p r.
Proof. intros [H1 H2] [H3 H4]. split; congruence. Qed.

Lemma graphic_sized t n x y id ctx p q e : sized p q ->
  GraphicTag t n x y id ctx p (Err e) -> GraphicTag t n x y id ctx q (Err e).
Proof.
  intros [S1 S2] H. inversion H; subst; [now apply GTUndefined|eapply GTVersion; eauto|eapply GTTooBig; eauto].
  rewrite S1, S2. auto.
Qed.

Lemma rect_excl r clr ctx p p' q e : sized p p' -> RectTag r clr ctx p (Err e) -> RectTag r clr ctx p' (Ok q) -> False.
Proof.
  intros [S1 S2] H K. inversion K as [| |x q' Sh On Pa]; subst. inversion H as [N|N|]; subst.
  - exact (N _ Sh).
  - apply N. now rewrite <- S1, <- S2.
Qed.

Lemma graphics_sized d c : forall done vs p q, Graphics d c done vs p q -> sized p q.
Proof.
  induction 1 as [|done n pos r p q q' HT HG IH|done rect clr r p q q' HT HG IH|done v r p q H1 H2 HG IH].
  - apply sized_refl.
  - apply (sized_trans _ q); auto. destruct (or_else pos (1, 1, None)) as [[x y] id].
    inversion HT as [| | |g q0 _ _ _ _ (O1 & O2 & _)]; subst. split; auto.
  - apply (sized_trans _ q); auto. inversion HT as [| |x q0 _ _ (O1 & O2 & _)]; subst. split; auto.
  - auto.
Qed.

Lemma graphics_app d c : forall a done b p q, Graphics d c done (a ++ b) p q ->
  exists m, Graphics d c done a p m /\ Graphics d c (done ++ a) b m q.
Proof.
  induction a as [|v a IH]; intros done b p q H; cbn [app] in H.
  - exists p. rewrite app_nil_r. split; [constructor|auto].
  - inversion H as [|? n pos ? ? q1 ? HT HG|? rect clr ? ? q1 ? HT HG|? ? ? ? ? H1 H2 HG]; subst;
      apply IH in HG as (m & G1 & G2); rewrite <- app_assoc in G2; cbn [app] in G2; exists m; split; auto.
    + eapply Gr_graphic; eauto.
    + eapply Gr_rect; eauto.
    + apply Gr_other; auto.
Qed.

Lemma draw_excl d c a v b p p' q q' e : sized p p' -> Drawable d v ->
  Graphics d c [] (a ++ v :: b) p' q' -> Graphics d c [] a p q -> DrawFault d c a q v e -> False.
Proof.
  intros HS [HN HRn] H G D. apply graphics_app in H as (m & G1 & G2). cbn [app] in G2.
  assert (HQ : sized q m).
  { apply (sized_trans _ p); [apply sized_sym; eapply graphics_sized; eauto|].
    apply (sized_trans _ p'); auto. eapply graphics_sized; eauto. }
  destruct D as [v B|n pos e D|r clr e D _|r clr NE _|v NR _].
  - contradiction.
  - inversion G2 as [|? ? ? ? ? q1 ? HT HG| |? ? ? ? ? H1 H2 HG]; subst.
    + destruct (or_else pos (1, 1, None)) as [[x y] id]. apply (graphic_sized _ _ _ _ _ _ _ m) in D; auto.
      exact (GraphicTag_err_fun _ _ _ _ _ _ _ _ _ D HT).
    + exact (H1 _ _ eq_refl).
  - inversion G2 as [| |? ? ? ? ? q1 ? HT HG|? ? ? ? ? H1 H2 HG]; subst.
    + eapply rect_excl; eauto.
    + exact (H2 _ _ eq_refl).
  - exact (NE HRn).
  - exact (NR HRn).
Qed.

(** Tags that can be followed, with a next text rectangle that is good. *)
Lemma accepted_tags d c vs after : NoFault (TagFault d c) vs ->
  (after = [] \/ exists r rest, after = VTextRectangle r :: rest /\ GoodTextRect d r /\ measurable d r) ->
  NoFault (TagFault d c) (vs ++ firstn 1 after).
Proof.
  intros H [->|(r & rest & -> & G & F)]; cbn [firstn]; [now rewrite app_nil_r|].
  apply NoFault_snoc. split; auto. intros f T. inversion T as [v B| | | |]; subst; auto. inversion B; auto.
Qed.

(** ** Text rectangles *)

Lemma first_rect vs after vs' after' : vs ++ after = vs' ++ after' -> no_text_rect vs -> no_text_rect vs' ->
  (after = [] \/ exists r rest, after = VTextRectangle r :: rest) ->
  (after' = [] \/ exists r rest, after' = VTextRectangle r :: rest) -> vs = vs' /\ after = after'.
Proof.
  revert vs'. induction vs as [|v vs IH]; intros vs' E N N' A A'; cbn [app] in E.
  - destruct vs' as [|v' vs']; auto. exfalso. destruct A as [->|(r & rest & ->)]; [discriminate|].
    injection E as <- _. apply (N' r). now left.
  - destruct vs' as [|v' vs']; cbn [app] in E.
    + exfalso. destruct A' as [->|(r & rest & ->)]; [discriminate|]. injection E as -> _. apply (N r). now left.
    + injection E as <- E. apply IH in E as [-> ->]; auto.
      * intros r I. apply (N r). now right.
      * intros r I. apply (N' r). now right.
Qed.

(** A page that is drawn, cut at its first text rectangle. *)
Lemma rendered_cut d T c vs after p q : Rendered d T c (vs ++ after) p q -> no_text_rect vs ->
  (after = [] \/ exists r rest, after = VTextRectangle r :: rest) ->
  exists q1 q2, Graphics d c [] vs p q1 /\ T c vs q1 q2
    /\ ((after = [] /\ q2 = q) \/ exists r rest, after = VTextRectangle r :: rest /\ GoodTextRect d r
          /\ Rendered d T (mkPlace (pl_earlier c) (pl_page c) (pl_upto c ++ vs ++ [VTextRectangle r])
               (rect_on (sign_width_pixels (d_vms_cfg d)) (sign_height_pixels (d_vms_cfg d)) r)) rest q2 q).
Proof.
  intros H N A. remember (vs ++ after) as l eqn:El.
  destruct H as [c ws p q1 q2 N' G HT|c ws r rest p q1 q2 q3 N' G HT GR HR].
  - rewrite <- (app_nil_r ws) in El. apply first_rect in El as [-> <-]; auto.
    exists q1, q2. splits; auto.
  - apply first_rect in El as [-> <-]; eauto. exists q1, q2. splits; auto. right. eauto.
Qed.

Lemma rects_none vs : no_text_rect vs -> text_rects vs = 0%nat.
Proof.
  intros N. induction vs as [|v vs IH]; auto.
  assert (text_rects vs = 0%nat) as E by (apply IH; intros r I; apply (N r); now right).
  destruct v; cbn [text_rects] in *; auto. exfalso. apply (N r). now left.
Qed.

Lemma fails_excl d : forall c vs p e, Fails d c vs p e -> forall p' q, sized p p' ->
  Rendered d (Accepted d) c vs p' q -> (forall r, In (VTextRectangle r) vs -> measurable d r) ->
  (text_rects (pl_upto c) + text_rects vs <= 49)%nat -> False.
Proof.
  induction 1 as [c vs after p e N A F|c vs r rest p q q' e N G HA HL GR GE HF IH]; intros p' qq HS HR HE HT.
  - apply rendered_cut in HR as (q1 & q2 & G1 & HA & HK); auto. destruct HA as (HX & HB & HTG & _ & HTF).
    assert (NT : NoFault (TagFault d c) (vs ++ firstn 1 after)).
    { apply accepted_tags; auto. destruct HK as [[-> _]|(r & rest & -> & GR & _)]; auto. right. exists r, rest. splits; auto.
      apply HE, in_elt. }
    destruct F as [a v b q f -> G FF D|q f G FF FT|q f G FF FT TF|q q' G HA' FT EN].
    + eapply (draw_excl d c a v b p p'); eauto. apply HB. apply in_elt.
    + exact (First_not _ _ _ FT NT).
    + exact (HTF f TF).
    + lia.
  - apply rendered_cut in HR as (q1 & q2 & G1 & HA' & HK); eauto.
    destruct HK as [[E _]|(r' & rest' & E & _ & HR)]; [discriminate E|]. injection E as <- <-.
    apply (IH q2 qq); auto.
    + apply (sized_trans _ p).
      { apply sized_sym. apply (sized_trans _ q); [eapply graphics_sized; eauto|]. destruct HA as ([S1 _ _ _ _ _] & _). exact S1. }
      apply (sized_trans _ p'); auto. apply (sized_trans _ q1); [eapply graphics_sized; eauto|].
      destruct HA' as ([S1 _ _ _ _ _] & _). exact S1.
    + intros r0 I. apply HE, in_or_app. right. now right.
    + cbn [pl_upto]. rewrite Proofs_Pages.text_rects_app in HT. rewrite !Proofs_Pages.text_rects_app. cbn [text_rects] in *. lia.
Qed.

(** ** Pages *)

Lemma page_excl d before pg q e : PageAccepted d before pg q -> PageFails d before pg e -> False.
Proof.
  intros (HS & HB & HN & HEd & HP) F. destruct F as [a v b -> Ha Hv|e Hb HF].
  - apply (HB v); auto. apply in_elt.
  - apply (fails_excl d _ _ _ _ HF _ q (sized_refl _) HP HEd). cbn. lia.
Qed.

Lemma refused_excl d v e : Supports d v -> Refused d (Ok v) e -> False.
Proof. intros HS H. inversion H as [|v' t HW HL]; subst. apply HL, HS, HW. Qed.

Lemma in_first vs (x : result Value SyntaxError) t pg r : map Ok vs ++ x :: t = map Ok pg ++ r -> no_page_break vs ->
  (r = [] \/ exists r', r = Ok VNewPage :: r') -> exists v, x = Ok v /\ (In v pg \/ v = VNewPage /\ r <> []).
Proof.
  revert pg. induction vs as [|v vs IH]; intros pg E N R; cbn [map app] in E.
  - destruct pg as [|u pg]; cbn [map app] in E.
    + destruct R as [->|(r' & ->)]; [discriminate|]. injection E as -> _. exists VNewPage. split; auto. right. split; auto. discriminate.
    + injection E as -> _. exists u. split; auto. left. now left.
  - destruct pg as [|u pg]; cbn [map app] in E.
    + exfalso. destruct R as [->|(r' & ->)]; [discriminate|]. injection E as -> _. apply N. now left.
    + injection E as <- E. apply IH in E as (w & -> & [I|I]); auto.
      * exists w. split; auto. left. now right.
      * exists w. auto.
      * intros I. apply N. now right.
Qed.

(** A page that is drawn does not fail. *)
Lemma rest_excl d before pg r q cut e : no_page_break pg -> (r = [] \/ exists r', r = Ok VNewPage :: r') ->
  (r <> [] -> Supports d VNewPage) -> (cut = true -> r <> []) -> PageAccepted d before pg q -> RestFails d before (map Ok pg ++ r) cut e -> False.
Proof.
  intros N R HS HC HA F. destruct F as [vs x t e E Nv Sv HR|vs EC E Nv Sv|pg' e FP _ Sv _ HF].
  - symmetry in E. apply in_first in E as (v & -> & I); auto. refine (refused_excl d v e _ HR).
    destruct I as [I|[-> I]]; auto. destruct HA as (HF & _). rewrite Forall_forall in HF. auto.
  - destruct R as [->|(r' & ->)]; [now apply (HC EC)|]. apply Nv.
    assert (I : In (Ok VNewPage) (map (@Ok Value SyntaxError) vs)) by (rewrite <- E; apply in_elt).
    apply in_map_iff in I as (v & Ev & Iv). injection Ev as ->. exact Iv.
  - assert (pg' = pg) as ->; [|exact (page_excl _ _ _ _ _ HA HF)].
    apply (FirstPage_fun _ _ _ FP). split; auto. destruct R as [->|(r' & ->)]; [left; apply app_nil_r|eauto].
Qed.

(** ** Messages *)

Lemma each_hd d F before pg pgs ps : EachPage d F before (pg :: pgs) ps ->
  exists q ps1 ps2, ps = ps1 ++ ps2 /\ F before pg q /\ EachPage d F (before ++ pg) pgs ps2
    /\ List.length ps1 = (if 0 <? snd (times_of d (before ++ pg)) then 2%nat else 1%nat).
Proof.
  intros H. inversion H as [|? ? ? P l H1 H2 H3 H4|? ? ? P Q l H1 H2 H3 H4 H4w H4h H5 H6]; subst.
  - exists (pg_raster P), [P], l. splits; auto. replace (0 <? _) with false by lia. reflexivity.
  - exists (pg_raster P), [P; Q], l. splits; auto. replace (0 <? _) with true by lia. reflexivity.
Qed.

Lemma closed_cons pg pgs : closed (pg :: pgs) = pg ++ VNewPage :: closed pgs.
Proof. unfold closed. cbn [map List.concat]. now rewrite <- app_assoc. Qed.

Lemma closed_map pg pgs rest : map Ok (closed (pg :: pgs)) ++ rest
  = map (@Ok Value SyntaxError) pg ++ Ok VNewPage :: map Ok (closed pgs) ++ rest.
Proof. rewrite closed_cons, map_app. cbn [map]. now rewrite <- app_assoc. Qed.

Lemma first_cut pg pg' r r' : no_page_break pg -> no_page_break pg' ->
  map (@Ok Value SyntaxError) pg ++ Ok VNewPage :: r = map Ok pg' ++ Ok VNewPage :: r' -> pg = pg' /\ r = r'.
Proof.
  intros N N' E. assert (pg = pg') as ->.
  { apply (FirstPage_fun (map Ok pg ++ Ok VNewPage :: r)); split; auto; right; [exists r|exists r']; auto. }
  apply app_inv_head in E. injection E as ->. auto.
Qed.

Lemma fails_accepted d : forall pgs before vs pgs' ps ps' rest e,
  map Ok (closed pgs) ++ rest = map Ok vs -> Forall no_page_break pgs ->
  EachPage d (PageAccepted d) before pgs ps -> RestFails d (before ++ List.concat pgs) rest false e ->
  SplitPages vs pgs' -> Forall (Supports d) vs -> EachPage d (PageAccepted d) before pgs' ps' -> False.
Proof.
  induction pgs as [|pg pgs IH]; intros before vs pgs' ps ps' rest e E HN HE HF HS HV HE'.
  - cbn [closed map List.concat app] in E. subst rest. rewrite app_nil_r in HF.
    destruct HS as [pg N|pg vs pgs' N HS].
    + apply each_hd in HE' as (q & _ & _ & _ & HA & _). rewrite <- (app_nil_r (map Ok pg)) in HF.
      apply (rest_excl d before pg [] q false e); auto; [intros C; exfalso; now apply C|discriminate].
    + apply each_hd in HE' as (q & _ & _ & _ & HA & _). rewrite map_app in HF. cbn [map] in HF.
      apply (rest_excl d before pg (Ok VNewPage :: map Ok vs) q false e); eauto; [|discriminate].
      intros _. rewrite Forall_forall in HV. apply HV, in_elt.
  - rewrite closed_map in E. inversion HN as [|? ? Npg HN']; subst.
    assert (exists vs2 pgs2, vs = pg ++ VNewPage :: vs2 /\ pgs' = pg :: pgs2 /\ SplitPages vs2 pgs2
              /\ map Ok (closed pgs) ++ rest = map Ok vs2) as (vs2 & pgs2 & -> & -> & HS2 & E2).
    { destruct HS as [pg' N'|pg' vs2 pgs2 N' HS].
      - exfalso. assert (I : In (Ok VNewPage) (map (@Ok Value SyntaxError) pg')) by (rewrite <- E; apply in_elt).
        apply in_map_iff in I as (v & Ev & Iv). injection Ev as ->. exact (N' Iv).
      - rewrite map_app in E. cbn [map] in E. apply first_cut in E as [-> E]; auto. exists vs2, pgs2. auto. }
    apply each_hd in HE as (_ & _ & ps2 & _ & _ & HE & _). apply each_hd in HE' as (_ & _ & ps2' & _ & _ & HE' & _).
    apply Forall_app in HV as [_ HV]. inversion HV as [|? ? _ HV2]; subst.
    refine (IH (before ++ pg) vs2 pgs2 ps2 ps2' rest e E2 HN' HE _ HS2 HV2 HE').
    cbn [List.concat] in HF. now rewrite app_assoc in HF.
Qed.

Lemma fails_same d cut : forall pgs before pgs' ps ps' rest rest' e e',
  map (@Ok Value SyntaxError) (closed pgs) ++ rest = map Ok (closed pgs') ++ rest' ->
  Forall no_page_break pgs -> Forall (Supports d) (closed pgs) ->
  EachPage d (PageAccepted d) before pgs ps -> RestFails d (before ++ List.concat pgs) rest cut e ->
  Forall no_page_break pgs' -> Forall (Supports d) (closed pgs') ->
  EachPage d (PageAccepted d) before pgs' ps' -> RestFails d (before ++ List.concat pgs') rest' cut e' ->
  pgs = pgs' /\ rest = rest'.
Proof.
  assert (HX : forall before pg pgs ps rest rest' e, rest = map Ok (closed (pg :: pgs)) ++ rest' -> no_page_break pg ->
    Forall (Supports d) (closed (pg :: pgs)) -> EachPage d (PageAccepted d) before (pg :: pgs) ps ->
    RestFails d before rest cut e -> False).
  { intros before pg pgs ps rest rest' e -> N S HE HF. apply each_hd in HE as (q & _ & _ & _ & HA & _).
    rewrite closed_map in HF. eapply rest_excl; [exact N| | | |exact HA|exact HF]; [right; eauto| |discriminate].
    intros _. rewrite closed_cons in S. rewrite Forall_forall in S. apply S, in_elt. }
  induction pgs as [|pg pgs IH]; intros before pgs' ps ps' rest rest' e e' E HN HS HE HF HN' HS' HE' HF'.
  - destruct pgs' as [|pg' pgs'].
    + split; auto.
    + exfalso. cbn [closed map List.concat app] in E, HF. rewrite app_nil_r in HF.
      inversion HN'; subst. eapply HX; eauto.
  - destruct pgs' as [|pg' pgs'].
    + exfalso. cbn [closed map List.concat app] in E, HF'. rewrite app_nil_r in HF'.
      inversion HN; subst. eapply HX; eauto.
    + inversion HN as [|? ? N1 HN1]; subst. inversion HN' as [|? ? N1' HN1']; subst.
      rewrite !closed_map in E. apply first_cut in E as [-> E]; auto.
      rewrite closed_cons in HS, HS'. apply Forall_app in HS as [_ HS], HS' as [_ HS'].
      inversion HS as [|? ? _ HS1]; subst. inversion HS' as [|? ? _ HS1']; subst.
      apply each_hd in HE as (_ & l1 & l2 & -> & _ & HE & L). apply each_hd in HE' as (_ & l1' & l2' & -> & _ & HE' & L').
      cbn [List.concat] in HF, HF'. rewrite app_assoc in HF, HF'.
      assert (pgs = pgs' /\ rest = rest') as [-> ->]; auto. eapply IH; eauto.
Qed.

Lemma each_len d F G : forall pgs before ps ps', EachPage d F before pgs ps -> EachPage d G before pgs ps' ->
  List.length ps = List.length ps'.
Proof.
  induction pgs as [|pg pgs IH]; intros before ps ps' H K.
  - inversion H; inversion K; subst; reflexivity.
  - apply each_hd in H as (_ & l1 & l2 & -> & _ & H & L). apply each_hd in K as (_ & l1' & l2' & -> & _ & K & L').
    rewrite !app_length, L, L'. f_equal. eauto.
Qed.

Lemma excl_message d ms ps ps' f : MessageAccepted d ms ps -> MessageStops d ms ps' f -> False.
Proof.
  intros (vs & pgs & HM & HS & HV & HE) (pgs' & rest & cut & HM' & HN & _ & HE' & HF).
  apply meaning_reading in HM. destruct (reading_fun _ _ _ _ _ HM' HM) as [E ->].
  exact (fails_accepted d pgs' [] vs pgs ps' ps rest f E HN HE' HF HS HV HE).
Qed.

Lemma same_message d ms ps ps' f f' : MessageStops d ms ps f -> MessageStops d ms ps' f' ->
  List.length ps = List.length ps'.
Proof.
  intros (pgs & rest & cut & HM & HN & HS & HE & HF) (pgs' & rest' & cut' & HM' & HN' & HS' & HE' & HF').
  destruct (reading_fun _ _ _ _ _ HM HM') as [E <-].
  destruct (fails_same d cut pgs [] pgs' ps ps' rest rest' f f' E HN HS HE HF HN' HS' HE' HF') as [<- _].
  exact (each_len _ _ _ _ _ _ _ HE HE').
Qed.

Lemma map_Ok_inj {A E} : forall l l' : list A, map (@Ok A E) l = map Ok l' -> l = l'.
Proof.
  induction l as [|x l IH]; intros [|y l'] H; try discriminate; auto. cbn in H. injection H as -> H. f_equal. auto.
Qed.

Lemma accepted_message d ms ps : Built d -> Yields Debug d ms (map Ok ps) -> MessageAccepted d ms ps.
Proof.
  intros HB HY. destruct (accepted_pages d ms ps HB HY) as (vs & pgs & HM & HS & HE).
  exists vs, pgs. splits; auto.
  assert (HP : forall before ps, EachPage d (PageAccepted d) before pgs ps -> forall pg, In pg pgs -> Forall (Supports d) pg).
  { clear. induction pgs as [|pg pgs IH]; intros before ps HE pg' I; [destruct I|].
    apply each_hd in HE as (q & _ & ps2 & _ & HA & HE & _). destruct I as [<-|I]; [apply HA|eauto]. }
  specialize (HP [] ps HE).
  assert (HNp : forall a b, vs = a ++ VNewPage :: b -> Supports d VNewPage).
  { intros a b E. destruct HY as (n & H & HL). destruct n as [|n]; [lia|]. cbn [pages_take] in H.
    destruct (pages_next Debug d (pages_new d ms)) as [[o p']| |] eqn:EN; try discriminate H. cbn [bind] in H.
    destruct o as [r|].
    2:{ exfalso. destruct ps; [|discriminate H]. destruct HS; apply each_hd in HE as (? & l1 & l2 & EL & _ & _ & L);
        symmetry in EL; apply app_eq_nil in EL as [-> _]; destruct (0 <? _); discriminate L. }
    apply Proofs_Pages.bind_val in H as (l & _ & H). injection H as H. destruct ps as [|P ps]; [discriminate H|].
    injection H as -> _.
    destruct (page_supported Debug d ms (pages_new d ms) ms (map Ok vs) P p') as (us & [Nu _] & _ & [EU|HL']); auto.
    - constructor.
    - exists true. reflexivity.
    - exists []. split; reflexivity.
    - exfalso. apply (map_Ok_inj) in EU. subst us. apply Nu. rewrite E. apply in_elt.
    - intros t W. inversion W; subst. exact HL'. }
  clear HE HY HM. induction HS as [pg N|pg vs pgs N HS IH].
  - apply HP. now left.
  - apply Forall_app. split; [apply HP; now left|]. constructor; [eapply HNp; reflexivity|].
    apply IH; [intros; apply HP; now right|]. intros a b ->. eapply HNp. reflexivity.
Qed.

Lemma oks_or_error {A} (l : list (result A SyntaxError)) :
  (exists ps, l = map Ok ps) \/ exists ps e l', l = map Ok ps ++ Err e :: l'.
Proof.
  induction l as [|[a|e] l IH]; [left; exists []; reflexivity| |right; exists [], e, l; reflexivity].
  destruct IH as [(ps & ->)|(ps & e & l' & ->)]; [left; exists (a :: ps)|right; exists (a :: ps), e, l']; reflexivity.
Qed.

(** The first call that panics. *)
Lemma first_panic md d : forall n p, pages_take md d n p = Panic ->
  exists l, pages_take md d (List.length l) p = Val l /\ pages_take md d (S (List.length l)) p = Panic.
Proof.
  induction n as [|n IH]; intros p H; cbn [pages_take] in H; [discriminate|].
  destruct (pages_next md d p) as [[[x|] p']| |] eqn:E; cbn [bind] in H; try discriminate H.
  - destruct (pages_take md d n p') as [l| |] eqn:E'; cbn [bind] in H; try discriminate H.
    apply IH in E' as (l & H1 & H2). exists (x :: l). cbn [List.length].
    remember (S (List.length l)) as k. cbn [pages_take]. rewrite E. cbn [bind]. rewrite H2. subst k. cbn [pages_take].
    rewrite E. cbn [bind]. rewrite H1. auto.
  - exists []. cbn. rewrite E. auto.
Qed.

(** Debug builds: pages, then nothing, an error or a panic. *)
Lemma total_debug d ms :
  (exists ps, Yields Debug d ms (map Ok ps))
  \/ (exists n ps e l, pages_take Debug d n (pages_new d ms) = Val (map Ok ps ++ Err e :: l))
  \/ exists ps, pages_take Debug d (List.length ps) (pages_new d ms) = Val (map Ok ps)
       /\ pages_take Debug d (S (List.length ps)) (pages_new d ms) = Panic.
Proof.
  destruct (Tokens_exists ms) as (ts & HT). destruct (take_cases Debug d ms ts HT) as [(l & HY & _)|[(n & _ & E)|(l & e & _ & E)]].
  - destruct (oks_or_error l) as [(ps & ->)|(ps & e & l' & ->)]; [left; eauto|]. right. left.
    destruct HY as (n & H & _). eauto.
  - right. apply first_panic in E as (l & H1 & H2). destruct (oks_or_error l) as [(ps & ->)|(ps & e & l' & ->)].
    + right. rewrite map_length in H1, H2. eauto.
    + left. eauto.
  - right. left. specialize (E 1%nat). cbn [repeat] in E. destruct (oks_or_error l) as [(ps & ->)|(ps & e' & l' & ->)].
    + eexists. exists ps, e, []. exact E.
    + eexists. exists ps, e', (l' ++ [Err e]). rewrite E, <- app_assoc. reflexivity.
Qed.
