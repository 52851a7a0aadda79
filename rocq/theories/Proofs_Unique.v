(** Proofs for C56: a message determines every pixel of its pages. *)

From Coq Require Import ZifyBool ZifyNat String.
From Verif Require Import Base Str Multi Color Raster Font Graphic Config Sign Render
  Spec_Multi Spec_Color Spec_Font Spec_Graphic Spec_Sign Spec_Render Spec_Layout Spec_Draw Spec_Page Spec_Safe Spec_Fail
  Proofs_Str Proofs_Norm Proofs_Font Proofs_Graphic Proofs_Sign Proofs_Render Proofs_Pages Proofs_Horiz Proofs_Vert Proofs_Layout
  Proofs_Place Proofs_Draw Proofs_Page Proofs_Modes Proofs_Safe Proofs_Text Proofs_Fail Proofs_Verdict Proofs_First.
Open Scope list_scope.
Ltac Zify.zify_post_hook ::= Z.div_mod_to_equations.

(** ** Images *)

Lemma same_refl p : SameImage p p. Proof. unfold SameImage. splits; auto. Qed.

Lemma same_sized p q : SameImage p q -> sized p q. Proof. intros (H1 & H2 & _). split; auto. Qed.

Lemma rgb_dec (a b : rgb) : {a = b} + {a <> b}.
Proof. repeat decide equality. Qed.

Lemma painted_same p p' q q' S c : SameImage p p' -> Painted p q S c -> Painted p' q' S c -> SameImage q q'.
Proof.
  intros (W & H & E) (Q1 & Q2 & Q) (Q1' & Q2' & Q'). unfold SameImage. splits; try congruence.
  intros x y O. unfold on_raster in *. rewrite Q1, Q2 in O.
  destruct (rgb_dec (r_pixel q' x y) (r_pixel q x y)) as [X|X]; auto. exfalso.
  assert (N : ~ S x y).
  { intros HS. apply X. now rewrite (proj1 (Q x y) HS), (proj1 (Q' x y) HS). }
  apply X. rewrite (proj2 (Q x y) N), (proj2 (Q' x y) N). auto.
Qed.

Lemma overlaid_same p p' q q' (I : Z -> Z -> rgb -> Prop) : SameImage p p' -> Overlaid p q I -> Overlaid p' q' I -> SameImage q q'.
Proof.
  intros (W & H & E) (Q1 & Q2 & Q) (Q1' & Q2' & Q'). unfold SameImage. splits; try congruence.
  intros x y O. unfold on_raster in *. rewrite Q1, Q2 in O.
  destruct (rgb_dec (r_pixel q' x y) (r_pixel q x y)) as [X|X]; auto. exfalso.
  assert (N : forall c, ~ I x y c).
  { intros c HI. apply X. now rewrite (proj1 (Q x y) c HI), (proj1 (Q' x y) c HI). }
  apply X. rewrite (proj2 (Q x y) N), (proj2 (Q' x y) N). auto.
Qed.

(** ** Tags *)

Lemma Shows_eq ctx c x y : Shows ctx c x -> Shows ctx c y -> x = y.
Proof.
  intros H K. inversion H; subst; inversion K; subst; try congruence;
    try (repeat match goal with H : _ \/ _ |- _ => destruct H end; congruence).
Qed.

Lemma graphic_same t n x y id ctx p p' q q' : SameImage p p' ->
  GraphicTag t n x y id ctx p (Ok q) -> GraphicTag t n x y id ctx p' (Ok q') -> SameImage q q'.
Proof.
  intros S H K. inversion H as [| | |g ? F V B1 B2 O]; subst. inversion K as [| | |g' ? F' V' B1' B2' O']; subst.
  rewrite (FirstGraphic_fun _ _ _ _ F' F) in O'. exact (overlaid_same _ _ _ _ _ S O O').
Qed.

Lemma rect_same r c ctx p p' q q' : SameImage p p' ->
  RectTag r c ctx p (Ok q) -> RectTag r c ctx p' (Ok q') -> SameImage q q'.
Proof.
  intros S H K. inversion H as [| |x ? F O P]; subst. inversion K as [| |x' ? F' O' P']; subst.
  rewrite (Shows_eq _ _ _ _ F' F) in P'. pose proof S as (W & Hh & _). rewrite W, Hh in P'.
  exact (painted_same _ _ _ _ _ _ S P P').
Qed.

Lemma graphics_same d c : forall done vs p q, Graphics d c done vs p q -> forall p' q', SameImage p p' ->
  Graphics d c done vs p' q' -> SameImage q q'.
Proof.
  induction 1 as [done p|done n pos r p q q' HT HG IH|done rect clr r p q q' HT HG IH|done v r p q N1 N2 HG IH];
    intros p' qq S K.
  - inversion K; subst. exact S.
  - inversion K as [|? ? ? ? ? q1 ? HT' HG'| |? ? ? ? ? H1 H2 HG']; subst; [|exfalso; eapply H1; reflexivity].
    apply (IH q1 qq); auto. destruct (or_else pos (1, 1, None)) as [[x y] id]. exact (graphic_same _ _ _ _ _ _ _ _ _ _ S HT HT').
  - inversion K as [| |? ? ? ? ? q1 ? HT' HG'|? ? ? ? ? H1 H2 HG']; subst; [|exfalso; eapply H2; reflexivity].
    apply (IH q1 qq); auto. exact (rect_same _ _ _ _ _ _ _ S HT HT').
  - inversion K as [|? ? ? ? ? q1 ? HT' HG'|? ? ? ? ? q1 ? HT' HG'|? ? ? ? ? H1 H2 HG']; subst;
      [exfalso; eapply N1; reflexivity|exfalso; eapply N2; reflexivity|]. exact (IH _ _ S HG').
Qed.

(** ** Text *)

Lemma drawn_same d all : forall todo p q, DrawnAt d all todo p q -> forall p' q', SameImage p p' ->
  DrawnAt d all todo p' q' -> SameImage q q'.
Proof.
  induction 1 as [p|s r p q q' f cs x y SW X Y P D IH]; intros p' qq S K.
  - inversion K; subst. exact S.
  - inversion K as [|? ? ? q1 ? f' cs' x' y' SW' X' Y' P' D']; subst. apply (IH q1 qq); auto.
    destruct (set_with_fun _ _ _ _ _ _ SW SW') as [<- <-].
    rewrite <- (at_x_fun _ _ _ _ _ X X'), <- (at_y_fun _ _ _ _ _ Y Y') in P'. exact (painted_same _ _ _ _ _ _ S P P').
Qed.

(** ** Pages *)

Lemma rendered_same d (T : Place -> list Value -> Raster rgb -> Raster rgb -> Prop) :
  (forall c vs p q, T c vs p q -> TextsShown d c vs p q) ->
  forall c vs p q, Rendered d T c vs p q -> forall p' q', SameImage p p' -> Rendered d T c vs p' q' -> SameImage q q'.
Proof.
  intros HT. assert (ST : forall c vs p q p' q', SameImage p p' -> T c vs p q -> T c vs p' q' -> SameImage q q').
  { intros c vs p q p' q' S H K. apply HT in H, K. apply ts_at in H, K. exact (drawn_same _ _ _ _ _ H _ _ S K). }
  induction 1 as [c vs p q q' N G X|c vs r rest p q q' q'' N G X GR HR IH]; intros p' qq S K.
  - rewrite <- (app_nil_r vs) in K. apply rendered_cut in K as (q1 & q2 & G1 & X1 & [[_ <-]|(r & rest & E & _)]); auto.
    + apply (ST c vs q q' q1 q2); auto. exact (graphics_same _ _ _ _ _ _ G _ _ S G1).
    + discriminate E.
  - apply rendered_cut in K as (q1 & q2 & G1 & X1 & [[E _]|(r' & rest' & E & _ & HR')]); eauto; [discriminate E|].
    injection E as <- <-. apply (IH q2 qq); auto. apply (ST c vs q q' q1 q2); auto. exact (graphics_same _ _ _ _ _ _ G _ _ S G1).
Qed.

Lemma each_same d (F : list Value -> list Value -> Raster rgb -> Prop) :
  (forall before pg q q', F before pg q -> F before pg q' -> SameImage q q') ->
  forall before pgs ps, EachPage d F before pgs ps -> forall ps', EachPage d F before pgs ps' -> Forall2 SamePage ps ps'.
Proof.
  intros HF. induction 1 as [before|before pg pgs P l H1 H2 H3 H4 IH|before pg pgs P Q l H1 H2 H3 H4 H4w H4h H5 H6 IH];
    intros ps' K.
  - inversion K; subst. constructor.
  - inversion K as [|? ? ? P' l' K1 K2 K3 K4|? ? ? P' Q' l' K1 K2 K3 K4 K4w K4h K5 K6]; subst; [|lia].
    constructor; auto. split; [congruence|]. eapply HF; eauto.
  - inversion K as [|? ? ? P' l' K1 K2 K3 K4|? ? ? P' Q' l' K1 K2 K3 K4 K4w K4h K5 K6]; subst; [lia|].
    constructor; [split; [congruence|]; eapply HF; eauto|]. constructor; auto. split; [congruence|].
    unfold SameImage. splits; try congruence. intros x y [Ox Oy]. rewrite H5, K5; auto; lia.
Qed.

Lemma split_fun : forall vs a b, SplitPages vs a -> SplitPages vs b -> a = b.
Proof.
  intros vs a b H. revert b. induction H as [pg N|pg vs pgs N HS IH]; intros b K.
  - inversion K as [|pg' vs' pgs' N' HS']; subst; auto. exfalso. apply N. apply in_elt.
  - remember (pg ++ VNewPage :: vs) as l eqn:E. destruct K as [pg' N'|pg' vs' pgs' N' HS'].
    + exfalso. subst pg'. apply N'. apply in_elt.
    + assert (EE : map (@Ok Value SyntaxError) pg' ++ Ok VNewPage :: map Ok vs' = map Ok pg ++ Ok VNewPage :: map Ok vs).
      { change (Ok VNewPage :: map Ok vs') with (map (@Ok Value SyntaxError) (VNewPage :: vs')).
        change (Ok VNewPage :: map Ok vs) with (map (@Ok Value SyntaxError) (VNewPage :: vs)).
        rewrite <- !map_app. now f_equal. }
      apply first_cut in EE as [-> EV]; auto. apply map_Ok_inj in EV. subst vs'. f_equal. auto.
Qed.

Lemma page_same d (T : Place -> list Value -> Raster rgb -> Raster rgb -> Prop) :
  (forall c vs p q, T c vs p q -> TextsShown d c vs p q) ->
  forall before pg q q', PageShown d T before pg q -> PageShown d T before pg q' -> SameImage q q'.
Proof. intros HT before pg q q' H K. exact (rendered_same d T HT _ _ _ _ H _ _ (same_refl _) K). Qed.

Lemma unique_pages d ms ps ps' : PagesShow d (PageShown d (TextsShown d)) ms ps ->
  PagesShow d (PageShown d (TextsShown d)) ms ps' -> Forall2 SamePage ps ps'.
Proof.
  intros (vs & pgs & HM & HS & HE) (vs' & pgs' & HM' & HS' & HE').
  pose proof (map_Ok_inj _ _ (Meaning_fun _ _ _ HM HM')) as <-. pose proof (split_fun _ _ _ HS HS') as <-.
  refine (each_same d _ _ _ _ _ HE _ HE'). apply page_same. auto.
Qed.

Lemma accepted_same d before pg q q' : PageAccepted d before pg q -> PageAccepted d before pg q' -> SameImage q q'.
Proof.
  intros (_ & _ & _ & _ & H) (_ & _ & _ & _ & K). refine (page_same d (Accepted d) _ _ _ _ _ H K). intros c vs p r [X _]. exact X.
Qed.

Lemma unique_accepted d ms ps ps' : MessageAccepted d ms ps -> MessageAccepted d ms ps' -> Forall2 SamePage ps ps'.
Proof.
  intros (vs & pgs & HM & HS & _ & HE) (vs' & pgs' & HM' & HS' & _ & HE').
  pose proof (map_Ok_inj _ _ (Meaning_fun _ _ _ HM HM')) as <-. pose proof (split_fun _ _ _ HS HS') as <-.
  refine (each_same d _ _ _ _ _ HE _ HE'). apply accepted_same.
Qed.

(** ** Places in a regular layout *)

Lemma picked_split {A} (P : A -> Prop) l g : Picked P l g -> forall a x b, g = a ++ x :: b ->
  exists l1 l2, l = l1 ++ x :: l2 /\ Picked P l1 a /\ Picked P l2 b.
Proof.
  induction 1 as [|y l g Hy HP IH|y l g Hy HP IH]; intros a x b E.
  - destruct a; discriminate E.
  - destruct a as [|z a]; injection E as -> E.
    + subst g. exists [], l. splits; auto. constructor.
    + destruct (IH _ _ _ E) as (l1 & l2 & -> & H1 & H2). exists (z :: l1), l2. splits; auto. now apply Pk_in.
  - destruct (IH _ _ _ E) as (l1 & l2 & -> & H1 & H2). exists (y :: l1), l2. splits; auto. now apply Pk_out.
Qed.

Lemma numbered_run all s pre post : Numbered all -> Picked (SameRun s) all (pre ++ s :: post) ->
  (forall t, In t pre -> s_number t < s_number s) /\ (forall t, In t post -> s_number s < s_number t).
Proof.
  intros HN HP. destruct (picked_split _ _ _ HP _ _ _ eq_refl) as (l1 & l2 & -> & H1 & H2). split; intros t I.
  - destruct (proj1 (Picked_in _ _ _ _ H1) I) as [J R]. apply in_split in J as (u & v & ->).
    rewrite <- app_assoc in HN. apply (HN u t v s l2); auto. unfold SameRun in *. intuition congruence.
  - destruct (proj1 (Picked_in _ _ _ _ H2) I) as [J R]. apply in_split in J as (u & v & ->).
    apply (HN l1 s u t v); auto.
Qed.

Lemma offset_app d n : forall a p b v, RunOffset (d_fonts d) n p (a ++ b) v <->
  exists u w, RunOffset (d_fonts d) n p a u /\ RunOffset (d_fonts d) n (match rev a with [] => p | s :: _ => Some s end) b w /\ v = u + w.
Proof.
  induction a as [|s a IH]; intros p b v; cbn [app rev].
  - split; [intros H; exists 0, v; splits; [constructor|auto|lia]|].
    intros (u & w & H1 & H2 & ->). inversion H1; subst. now rewrite Z.add_0_l.
  - replace (match rev a ++ [s] with [] => p | x :: _ => Some x end)
      with (match rev a with [] => Some s | x :: _ => Some x end) by (destruct (rev a); auto).
    split.
    + intros H. apply RunOffset_inv in H. destruct H as (g & x & u & G & W & C & ->).
      apply IH in C. destruct C as (u' & w' & H5 & H6 & ->). exists (ro_part p n s g x + u'), w'.
      splits; auto; [|lia]. now apply RunOffset_cons.
    + intros (u & w & H1 & H2 & ->). apply RunOffset_inv in H1. destruct H1 as (g & x & u' & G & W & C & ->).
      rewrite <- Z.add_assoc. apply RunOffset_cons; auto. apply IH. exists u', w. auto.
Qed.

Lemma offset_less d n : forall l p v, (forall t, In t l -> s_number t < n) ->
  (RunOffset (d_fonts d) n p l v <-> Chain (d_fonts d) p l v).
Proof.
  induction l as [|s r IH]; intros p v HN; [split; intros H; inversion H; constructor|].
  assert (E : forall g w, ro_part p n s g w = g + w).
  { intros g w. unfold ro_part. specialize (HN s (or_introl eq_refl)).
    replace (s_number s <=? n) with true by lia. replace (s_number s <? n) with true by lia. reflexivity. }
  split; intros H.
  - apply RunOffset_inv in H. destruct H as (g & w & u & G & W & C & ->). rewrite E. constructor; auto.
    apply IH; auto. intros t I. apply HN. now right.
  - apply Chain_inv in H. destruct H as (g & w & u & G & W & C & ->). rewrite <- (E g w). apply RunOffset_cons; auto.
    apply IH; auto. intros t I. apply HN. now right.
Qed.

Lemma offset_more d n : forall l p, (forall t, In t l -> n < s_number t) ->
  (forall v, RunOffset (d_fonts d) n p l v -> v = 0) /\ (forall c, Chain (d_fonts d) p l c -> RunOffset (d_fonts d) n p l 0).
Proof.
  induction l as [|s r IH]; intros p HN.
  { split; intros v H; inversion H; subst; [auto|constructor]. }
  assert (E : forall g w, ro_part p n s g w = 0).
  { intros g w. unfold ro_part. specialize (HN s (or_introl eq_refl)).
    replace (s_number s <=? n) with false by lia. replace (s_number s <? n) with false by lia. reflexivity. }
  destruct (IH (Some s)) as [I1 I2]; [intros t I; apply HN; now right|]. split; intros v H.
  - apply RunOffset_inv in H. destruct H as (g & w & u & G & W & C & ->). rewrite E. now rewrite (I1 _ C).
  - apply Chain_inv in H. destruct H as (g & w & u & G & W & C & ->). replace 0 with (ro_part p n s g w + 0) by (rewrite E; lia).
    apply RunOffset_cons; auto. exact (I2 _ C).
Qed.

(** The distance to a span of a run that is numbered in order. *)
Lemma offset_before d pre s post total b : (forall t, In t pre -> s_number t < s_number s) ->
  (forall t, In t post -> s_number s < s_number t) -> RunWidth (d_fonts d) (pre ++ s :: post) total ->
  (RunOffset (d_fonts d) (s_number s) None (pre ++ s :: post) b <-> Before (d_fonts d) pre s b).
Proof.
  intros H1 H2 W. assert (C : Chain (d_fonts d) None (pre ++ s :: post) total).
  { destruct pre; now apply RunWidth_chain in W. }
  apply Chain_app in C as (u & w & C1 & C2 & _). apply Chain_inv in C2 as (g & x & c & G & SW & C3 & _).
  assert (ES : forall g' w', ro_part (match rev pre with [] => None | s0 :: _ => Some s0 end) (s_number s) s g' w' = g').
  { intros g' w'. unfold ro_part. rewrite Z.leb_refl, Z.ltb_irrefl. lia. }
  destruct (offset_more d (s_number s) post (Some s) H2) as [M1 M2].
  rewrite offset_app, Before_chain. split.
  - intros (u' & w' & R1 & R2 & ->). apply offset_less in R1; auto. exists u'. split; auto.
    apply RunOffset_inv in R2 as (g' & x' & v' & G' & _ & R3 & ->). rewrite ES, (M1 _ R3).
    destruct (rev pre) as [|q l]; cbn [gap_to] in G'; [lia|]. exists g'. split; auto. lia.
  - intros (u' & C' & E). exists u'. exists g. splits.
    + now apply offset_less.
    + replace g with (ro_part (match rev pre with [] => None | s0 :: _ => Some s0 end) (s_number s) s g x + 0)
        by (rewrite ES; lia). apply RunOffset_cons; eauto.
    + destruct (rev pre) as [|q l]; cbn [gap_to] in G; [lia|]. destruct E as (g' & G' & ->).
      now rewrite (Gap_fun _ _ _ _ _ G' G).
Qed.

Lemma at_placed_x d all s x : Numbered all -> In s all -> (AtX d all s x <-> PlacedX d all s x).
Proof.
  intros HN I. split.
  - intros (run & b & total & P & R & W & L & X).
    assert (J : In s run) by (apply (Picked_in _ _ _ _ P); split; auto; apply SameRun_refl).
    apply in_split in J as (pre & post & ->). destruct (numbered_run _ _ _ _ HN P) as [N1 N2].
    exists pre, post, b, total. splits; auto. now apply (offset_before _ _ _ _ _ _ N1 N2 W).
  - intros (pre & post & b & total & P & B & W & L & X). destruct (numbered_run _ _ _ _ HN P) as [N1 N2].
    exists (pre ++ s :: post), b, total. splits; auto. now apply (offset_before _ _ _ _ _ _ N1 N2 W).
Qed.

Lemma at_placed_y d all s y : Stacked all -> In s all -> (AtY d all s y <-> PlacedY d all s y).
Proof.
  intros HS I. assert (H0 : 0 <= s_line s) by (apply in_split in I as (a & b & ->); apply (HS a s b eq_refl)). split.
  - intros (block & ls & a & total & base & h & PB & C & SA & ST & L & P & H & ->).
    pose proof (Picked_fun _ _ _ _ PB (block_picked all s)) as ->. pose proof (counted_block all s ls HS C) as BL.
    exists (firstn (Z.to_nat (s_line s + 1)) ls), (skipn (Z.to_nat (s_line s + 1)) ls), a, total, base, h.
    rewrite firstn_skipn. splits; auto. rewrite firstn_length.
    destruct BL as [_ B2]. specialize (B2 s I eq_refl). lia.
  - intros (upto & after & a & total & base & h & BL & E & SA & ST & L & P & H & ->).
    destruct (counted_total (block_of all s)) as (ls' & C).
    { intros t J. apply filter_In in J as [J _]. apply in_split in J as (u & v & ->). apply (HS u t v eq_refl). }
    pose proof (BlockLines_fun _ _ _ _ I BL (counted_block all s ls' HS C)) as <-.
    exists (block_of all s), (upto ++ after), a, total, base, h. splits; auto; [apply block_picked|].
    replace (Z.to_nat (s_line s + 1)) with (List.length upto) by lia.
    now rewrite firstn_app, firstn_all, Nat.sub_diag, app_nil_r.
Qed.

(** ** Messages *)

Lemma unique_stops d ms ps ps' f f' : MessageStops d ms ps f -> MessageStops d ms ps' f' -> Forall2 SamePage ps ps' /\ f = f'.
Proof.
  intros HX HX'. split; [|exact (same_fault _ _ _ _ _ _ HX HX')]. revert HX HX'.
  intros (pgs & rest & cut & HM & HN & HS & HE & HF) (pgs' & rest' & cut' & HM' & HN' & HS' & HE' & HF').
  destruct (reading_fun _ _ _ _ _ HM HM') as [E <-].
  destruct (fails_same d cut pgs [] pgs' ps ps' rest rest' f f' E HN HS HE HF HN' HS' HE' HF') as [<- _].
  refine (each_same d _ _ _ _ _ HE _ HE'). apply accepted_same.
Qed.

Lemma unique_fails d ms ps ps' e e' : MessageFails d ms ps e -> MessageFails d ms ps' e' -> Forall2 SamePage ps ps' /\ e = e'.
Proof. intros H H'. destruct (unique_stops _ _ _ _ _ _ H H') as [S E]. injection E as E. auto. Qed.

Lemma described_debug d ms : Built d ->
  (forall ps, MessageAccepted d ms ps -> exists qs, Yields Debug d ms (map Ok qs) /\ Forall2 SamePage qs ps)
  /\ (forall ps e, MessageFails d ms ps e -> exists n qs l,
        pages_take Debug d n (pages_new d ms) = Val (map Ok qs ++ Err e :: l) /\ Forall2 SamePage qs ps)
  /\ (forall ps, MessagePanics d ms ps -> exists qs,
        pages_take Debug d (List.length qs) (pages_new d ms) = Val (map Ok qs)
        /\ pages_take Debug d (S (List.length qs)) (pages_new d ms) = Panic /\ Forall2 SamePage qs ps).
Proof.
  intros HB. destruct (exact_debug d ms HB) as ([_ A] & X & Y). splits.
  - intros ps HA. destruct A as (qs & HY); eauto. exists qs. split; auto. eapply unique_accepted; eauto.
    apply accepted_message; auto.
  - intros ps e HX. destruct (proj2 (X (List.length ps) e)) as (n & qs & l & _ & H); eauto.
    exists n, qs, l. split; auto.
    refine (proj1 (unique_fails d ms qs ps e e _ HX)). eapply fail_message; eauto.
  - intros ps HX. destruct (proj2 (Y (List.length ps))) as (qs & E & H & H'); eauto. rewrite <- E in H, H'.
    exists qs. splits; auto. destruct HX as (g & _ & HX). destruct (panic_message d ms qs HB H H') as (g' & _ & HX').
    exact (proj1 (unique_stops d ms qs ps g' g HX' HX)).
Qed.

(** ** Both builds *)

Lemma take_firstn md d : forall n k p l, pages_take md d n p = Val l -> (k <= n)%nat -> pages_take md d k p = Val (firstn k l).
Proof.
  induction n as [|n IH]; intros [|k] p l H L; cbn [pages_take] in *; try lia; try reflexivity.
  apply bind_val in H as ([o p'] & E & H). rewrite E. cbn [bind]. destruct o as [x|].
  - apply bind_val in H as (l' & E' & H). injection H as <-. cbn [firstn].
    rewrite (IH k p' l' E') by lia. reflexivity.
  - injection H as <-. reflexivity.
Qed.

Lemma take_agree md d n m p l l' : pages_take md d n p = Val l -> pages_take md d m p = Val l' ->
  exists k, l = firstn k l' \/ l' = firstn k l.
Proof.
  intros H H'. destruct (Nat.le_gt_cases n m) as [L|L].
  - pose proof (take_firstn md d m n p l' H' L) as E. exists n. left. congruence.
  - pose proof (take_firstn md d n m p l H ltac:(lia)) as E. exists m. right. congruence.
Qed.

Lemma take_done md d : forall n p l, pages_take md d n p = Val l -> (List.length l < n)%nat ->
  forall m, (List.length l <= m)%nat -> pages_take md d m p = Val l.
Proof.
  induction n as [|n IH]; intros p l H L m M; [lia|]. cbn [pages_take] in H.
  apply bind_val in H as ([o p'] & E & H). destruct o as [x|].
  - apply bind_val in H as (l' & E' & H). injection H as <-. cbn [List.length] in L, M.
    destruct m as [|m]; [lia|]. cbn [pages_take]. rewrite E. cbn [bind].
    rewrite (IH p' l' E' ltac:(lia) m ltac:(lia)). reflexivity.
  - injection H as <-. destruct m; cbn [pages_take]; [reflexivity|]. rewrite E. reflexivity.
Qed.

Lemma firstn_oks_err {A E} : forall (ps qs : list A) (e f : E) l l' k,
  firstn k (map Ok qs ++ Err f :: l') = map Ok ps ++ Err e :: l -> ps = qs /\ e = f.
Proof.
  induction ps as [|p ps IH]; intros [|q qs] e f l l' [|k] H; cbn in H; try discriminate H; auto.
  - injection H as ->. auto.
  - injection H as -> H. apply IH in H as [-> ->]. auto.
Qed.

Lemma firstn_oks {A E} : forall (ps qs : list A) (e : E) l k, firstn k (map Ok qs) <> map Ok ps ++ Err e :: l.
Proof.
  induction ps as [|p ps IH]; intros [|q qs] e l [|k] H; cbn in H; try discriminate H.
  injection H as -> H. exact (IH _ _ _ _ H).
Qed.

(** Errors, and the pages before, are the same whatever is asked for. *)
Lemma errors_agree md d n m p ps qs e f l l' : pages_take md d n p = Val (map Ok ps ++ Err e :: l) ->
  pages_take md d m p = Val (map Ok qs ++ Err f :: l') -> ps = qs /\ e = f.
Proof.
  intros H H'. destruct (take_agree md d n m p _ _ H H') as (k & [E|E]); symmetry in E; apply firstn_oks_err in E; intuition congruence.
Qed.

Lemma yields_no_error md d n ms ps qs e l : Yields md d ms (map Ok ps) ->
  pages_take md d n (pages_new d ms) = Val (map Ok qs ++ Err e :: l) -> False.
Proof.
  intros (m & H & L) H'. destruct (Nat.le_gt_cases (List.length (map Ok ps : list (result Page SyntaxError))) n) as [M|M].
  - rewrite (take_done md d m _ _ H L n M) in H'. injection H' as E.
    apply (firstn_oks qs ps e l (List.length (map Ok ps : list (result Page SyntaxError)))). now rewrite firstn_all, E.
  - assert (n <= m)%nat as K by lia. pose proof (take_firstn md d m n _ _ H K) as E. rewrite H' in E. injection E as E.
    exact (firstn_oks qs ps e l n (eq_sym E)).
Qed.

Lemma yields_one md d ms l l' : Yields md d ms l -> Yields md d ms l' -> l = l'.
Proof.
  intros (n & H & L) (m & H' & L').
  pose proof (take_done md d n _ _ H L (n + m)%nat ltac:(lia)) as E.
  pose proof (take_done md d m _ _ H' L' (n + m)%nat ltac:(lia)) as E'. congruence.
Qed.

Lemma yields_modes d ms l md : Yields Debug d ms l -> Yields md d ms l.
Proof. intros (n & H & L). exists n. split; auto. destruct md; auto. now apply Proofs_Modes.take_modes. Qed.

Lemma both_builds d ms : Built d ->
  (forall ps, MessageAccepted d ms ps -> forall md, exists qs, Yields md d ms (map Ok qs) /\ Forall2 SamePage qs ps)
  /\ (forall ps e, MessageFails d ms ps e -> forall md, exists n qs l,
        pages_take md d n (pages_new d ms) = Val (map Ok qs ++ Err e :: l) /\ Forall2 SamePage qs ps)
  /\ (forall ps, MessagePanics d ms ps -> forall md, exists qs,
        pages_take md d (List.length qs) (pages_new d ms) = Val (map Ok qs) /\ Forall2 SamePage qs ps).
Proof.
  intros HB. destruct (described_debug d ms HB) as (A & X & Y). splits.
  - intros ps HA md. destruct (A ps HA) as (qs & HY & S). exists qs. split; auto. now apply yields_modes.
  - intros ps e HX md. destruct (X ps e HX) as (n & qs & l & H & S). exists n, qs, l. split; auto.
    destruct md; auto. now apply Proofs_Modes.take_modes.
  - intros ps HX md. destruct (Y ps HX) as (qs & H & _ & S). exists qs. split; auto.
    destruct md; auto. now apply Proofs_Modes.take_modes.
Qed.

(** What a message does in a debug build, and in a release build. *)
Lemma total_modes d ms : Built d -> ~ Wraps d ms ->
  (exists ps, MessageAccepted d ms ps /\ forall md, Yields md d ms (map Ok ps))
  \/ (exists n ps e l, MessageFails d ms ps e /\ forall md, pages_take md d n (pages_new d ms) = Val (map Ok ps ++ Err e :: l))
  \/ (exists ps, (forall md, pages_take md d (List.length ps) (pages_new d ms) = Val (map Ok ps))
        /\ pages_take Debug d (S (List.length ps)) (pages_new d ms) = Panic
        /\ (MessageStops d ms ps Crash /\ pages_take Release d (S (List.length ps)) (pages_new d ms) = Panic
            \/ exists e, MessageStops d ms ps (Overflow (Some e))
                 /\ pages_take Release d (S (List.length ps)) (pages_new d ms) = Val (map Ok ps ++ [Err e]))).
Proof.
  intros HB HN. destruct (total_debug d ms) as [(qs & H)|[(n & qs & e & l & H)|(qs & H & H')]].
  - left. exists qs. split; [now apply accepted_message|]. intros md. now apply yields_modes.
  - right. left. exists n, qs, e, l. split; [exact (fail_message d n ms qs e l HB H)|].
    intros []; auto. now apply Proofs_Modes.take_modes.
  - right. right. exists qs. split; [intros []; auto; now apply Proofs_Modes.take_modes|]. split; auto.
    destruct (release_message d ms qs HB H H') as (f & X & P & C & O). destruct f as [e| |[e|]].
    + exfalso. now apply (P e).
    + left. auto.
    + right. eauto.
    + exfalso. apply HN. now exists qs.
Qed.

Lemma take_val md d n k p l : pages_take md d n p = Val l -> (k <= n)%nat -> pages_take md d k p = Panic -> False.
Proof. intros H L K. rewrite (take_firstn md d n k p l H L) in K. discriminate K. Qed.

Lemma take_length md d : forall n p l, pages_take md d n p = Val l -> (List.length l <= n)%nat.
Proof.
  induction n as [|n IH]; intros p l H; cbn [pages_take] in H; [injection H as <-; cbn; lia|].
  apply bind_val in H as ([o p'] & _ & H). destruct o as [x|]; [|injection H as <-; cbn; lia].
  apply bind_val in H as (l' & E & H). injection H as <-. apply IH in E. cbn. lia.
Qed.

(** A panic after [qs] is the only one, and nothing else comes after [qs]. *)
Lemma panic_only md d ms qs : pages_take md d (List.length qs) (pages_new d ms) = Val (map Ok qs) ->
  pages_take md d (S (List.length qs)) (pages_new d ms) = Panic ->
  (forall ps, ~ Yields md d ms (map Ok ps))
  /\ (forall n ps e l, pages_take md d n (pages_new d ms) <> Val (map Ok ps ++ Err e :: l))
  /\ (forall ps, pages_take md d (List.length ps) (pages_new d ms) = Val (map Ok ps) ->
        pages_take md d (S (List.length ps)) (pages_new d ms) = Panic -> ps = qs).
Proof.
  intros H K. splits.
  - intros ps (m & E & L). rewrite map_length in L. destruct (Nat.le_gt_cases m (List.length qs)) as [M|M].
    + rewrite (take_firstn md d _ m _ _ H M) in E. injection E as E. apply (f_equal (@List.length _)) in E.
      rewrite firstn_length, !map_length in E. lia.
    + exact (take_val md d m (S (List.length qs)) _ _ E ltac:(lia) K).
  - intros n ps e l E. destruct (Nat.le_gt_cases n (List.length qs)) as [M|M].
    + rewrite (take_firstn md d _ n _ _ H M) in E. injection E as E. exact (firstn_oks _ _ _ _ _ E).
    + exact (take_val md d n (S (List.length qs)) _ _ E ltac:(lia) K).
  - intros ps E E'. assert (List.length ps = List.length qs) as L.
    { destruct (Nat.lt_trichotomy (List.length ps) (List.length qs)) as [M|[M|M]]; auto; exfalso.
      - exact (take_val md d _ (S (List.length ps)) _ _ H ltac:(lia) E').
      - exact (take_val md d _ (S (List.length qs)) _ _ E ltac:(lia) K). }
    rewrite L, H in E. injection E as E. now apply map_Ok_inj in E.
Qed.

Lemma error_no_panic md d ms n qs e l ps : pages_take md d n (pages_new d ms) = Val (map Ok qs ++ Err e :: l) ->
  pages_take md d (List.length ps) (pages_new d ms) = Val (map Ok ps) ->
  pages_take md d (S (List.length ps)) (pages_new d ms) = Panic -> False.
Proof.
  intros H E K. exact (proj1 (proj2 (panic_only md d ms ps E K)) n qs e l H).
Qed.

Lemma yields_no_panic md d ms qs ps : Yields md d ms (map Ok qs) ->
  pages_take md d (List.length ps) (pages_new d ms) = Val (map Ok ps) ->
  pages_take md d (S (List.length ps)) (pages_new d ms) = Panic -> False.
Proof. intros H E K. exact (proj1 (panic_only md d ms ps E K) qs H). Qed.

(** Unless a number wraps around, release builds do what is described too. *)
Lemma exact_modes d ms md : Built d -> (md = Release -> ~ Wraps d ms) ->
  (forall ps, Yields md d ms (map Ok ps) -> MessageAccepted d ms ps)
  /\ (forall n ps e l, pages_take md d n (pages_new d ms) = Val (map Ok ps ++ Err e :: l) -> FailsIn md d ms ps e)
  /\ (forall ps, pages_take md d (List.length ps) (pages_new d ms) = Val (map Ok ps) ->
        pages_take md d (S (List.length ps)) (pages_new d ms) = Panic -> PanicsIn md d ms ps).
Proof.
  intros HB HN. destruct md.
  - splits.
    + intros ps HP. now apply accepted_message.
    + intros n ps e l E. left. exact (fail_message d n ms ps e l HB E).
    + intros ps E E'. exact (panic_message d ms ps HB E E').
  - specialize (HN eq_refl).
    destruct (total_modes d ms HB HN) as [(qs & HA & HY)|[(n & qs & e & l & HF & HT)|(qs & HT & _ & [(HS & HP)|(e & HS & HP)])]].
    + specialize (HY Release). splits.
      * intros ps HP. pose proof (yields_one _ d ms _ _ HY HP) as E. apply map_Ok_inj in E as <-. exact HA.
      * intros n ps e l E. exfalso. exact (yields_no_error _ d n ms _ _ _ _ HY E).
      * intros ps E E'. exfalso. exact (yields_no_panic _ d ms _ _ HY E E').
    + specialize (HT Release). splits.
      * intros ps HP. exfalso. exact (yields_no_error _ d n ms _ _ _ _ HP HT).
      * intros m ps f l' E. destruct (errors_agree _ d m n _ _ _ _ _ _ _ E HT) as [-> ->]. now left.
      * intros ps E E'. exfalso. exact (error_no_panic _ d ms _ _ _ _ _ HT E E').
    + destruct (panic_only Release d ms qs (HT Release) HP) as (P1 & P2 & P3). splits.
      * intros ps HY. exfalso. exact (P1 ps HY).
      * intros n ps e l E. exfalso. exact (P2 n ps e l E).
      * intros ps E E'. rewrite (P3 ps E E'). exact HS.
    + splits.
      * intros ps HY. exfalso. exact (yields_no_error _ d _ ms _ _ _ _ HY HP).
      * intros m ps f l' E. destruct (errors_agree _ d _ _ _ _ _ _ _ _ _ E HP) as [-> ->]. right. auto.
      * intros ps E E'. exfalso. exact (error_no_panic _ d ms _ _ _ _ _ HP E E').
Qed.

Lemma SamePage_length ps qs : Forall2 SamePage qs ps -> List.length qs = List.length ps.
Proof. induction 1; cbn; auto. Qed.

(** What is described happens, in both builds, whatever wraps around. *)
Lemma described_modes d ms md : Built d ->
  (forall ps, MessageAccepted d ms ps -> exists qs, Yields md d ms (map Ok qs) /\ Forall2 SamePage qs ps)
  /\ (forall ps e, FailsIn md d ms ps e -> exists n qs l,
        pages_take md d n (pages_new d ms) = Val (map Ok qs ++ Err e :: l) /\ Forall2 SamePage qs ps)
  /\ (forall ps, PanicsIn md d ms ps -> exists qs,
        pages_take md d (List.length qs) (pages_new d ms) = Val (map Ok qs)
        /\ pages_take md d (S (List.length qs)) (pages_new d ms) = Panic /\ Forall2 SamePage qs ps).
Proof.
  intros HB. destruct (both_builds d ms HB) as (A & F & P). destruct (described_debug d ms HB) as (_ & _ & Y).
  assert (R : forall ps f, MessageStops d ms ps f -> panics f -> exists qs, Forall2 SamePage qs ps
    /\ (f = Crash -> pages_take Release d (List.length qs) (pages_new d ms) = Val (map Ok qs)
         /\ pages_take Release d (S (List.length qs)) (pages_new d ms) = Panic)
    /\ forall e, f = Overflow (Some e) -> pages_take Release d (S (List.length qs)) (pages_new d ms) = Val (map Ok qs ++ [Err e])).
  { intros ps f HS HP. destruct (Y ps) as (qs & T & T' & SP); [exists f; auto|]. exists qs. split; auto.
    destruct (release_message d ms qs HB T T') as (g & HG & _ & C & O). destruct (unique_stops _ _ _ _ _ _ HS HG) as [_ <-].
    split; [|exact O]. intros E. split; [now apply Proofs_Modes.take_modes|auto]. }
  splits.
  - intros ps HA. exact (A ps HA md).
  - intros ps e [HF|(-> & HS)]; [exact (F ps e HF md)|].
    destruct (R ps _ HS) as (qs & SP & _ & O); [intros e' E; discriminate E|]. exists (S (List.length qs)), qs, []. auto.
  - intros ps HP. destruct md; [exact (Y ps HP)|]. cbn in HP.
    destruct (R ps _ HP) as (qs & SP & C & _); [intros e' E; discriminate E|]. destruct (C eq_refl) as [C1 C2]. eauto.
Qed.

(** Where nothing wraps around, debug builds give the pages that release builds give. *)
Lemma yields_debug d ms md ps : Built d -> (md = Release -> ~ Wraps d ms) ->
  Yields md d ms (map Ok ps) -> Yields Debug d ms (map Ok ps).
Proof.
  intros HB HN HY. pose proof (proj1 (exact_modes d ms md HB HN) ps HY) as HA.
  destruct (proj1 (described_debug d ms HB) ps HA) as (qs & HD & _).
  rewrite (yields_one md d ms _ _ HY (yields_modes d ms _ md HD)). exact HD.
Qed.

Lemma safe_no_panic d ms rs : Built d -> Usable d -> FontsInCells d -> PlaceableDefaults d ->
  Meaning ms rs -> Forall (Renderable d) (oks rs) -> Moderate d (oks rs) -> forall ps, ~ MessagePanics d ms ps.
Proof.
  intros HB HU HF HP HM HR HO ps HX. destruct (described_debug d ms HB) as (_ & _ & Y).
  destruct (Y ps HX) as (qs & _ & H & _).
  destruct (safe d ms rs HB HU HF HP HM HR HO Debug (S (List.length qs))) as (l & E). congruence.
Qed.

Lemma no_panic_wraps d ms : (forall ps, ~ MessagePanics d ms ps) -> ~ Wraps d ms.
Proof. intros H (ps & HS). apply (H ps). exists (Overflow None). split; auto. intros e E. discriminate E. Qed.

Lemma verdict_modes d ms md : Built d -> (md = Release -> ~ Wraps d ms) ->
  ((exists ps, Yields md d ms (map Ok ps)) <-> exists ps, MessageAccepted d ms ps)
  /\ (forall k e, (exists n ps l, List.length ps = k /\ pages_take md d n (pages_new d ms) = Val (map Ok ps ++ Err e :: l))
       <-> exists ps, List.length ps = k /\ FailsIn md d ms ps e)
  /\ forall k, (exists ps, List.length ps = k /\ pages_take md d k (pages_new d ms) = Val (map Ok ps)
                  /\ pages_take md d (S k) (pages_new d ms) = Panic)
        <-> exists ps, List.length ps = k /\ PanicsIn md d ms ps.
Proof.
  intros HB HN. destruct (exact_modes d ms md HB HN) as (A & F & P). destruct (described_modes d ms md HB) as (A' & F' & P'). splits.
  - split; intros (ps & H); [eauto|]. destruct (A' ps H) as (qs & HY & _). eauto.
  - intros k e. split; [intros (n & ps & l & L & H); eauto|]. intros (ps & L & H).
    destruct (F' ps e H) as (n & qs & l & E & S). exists n, qs, l. split; auto. apply SamePage_length in S. congruence.
  - intros k. split; [intros (ps & <- & H & H'); eauto|]. intros (ps & L & H).
    destruct (P' ps H) as (qs & E & E' & S). exists qs. apply SamePage_length in S. replace k with (List.length qs) by congruence. auto.
Qed.
