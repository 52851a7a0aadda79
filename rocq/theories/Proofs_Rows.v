(** Lines of text do not overlap (C54). *)

From Coq Require Import String ZifyBool ZifyNat.
From Verif Require Import Base Str Multi Color Raster Font Graphic Config Sign Render
  Spec_Multi Spec_Color Spec_Font Spec_Tfon Spec_Graphic Spec_Sign Spec_Render Spec_Layout Spec_Page
  Proofs_Str Proofs_Norm Proofs_Color Proofs_Font Proofs_Glyph Proofs_Table Proofs_Sign Proofs_Render Proofs_Horiz Proofs_Vert Proofs_Layout
  Proofs_Machine Proofs_Iter Proofs_Pages Proofs_Count Proofs_Build Proofs_Place Proofs_Each Proofs_Page Proofs_Orderly Proofs_Cover.
Open Scope list_scope.
Ltac Zify.zify_post_hook ::= Z.div_mod_to_equations.

Section Rows.
Variable d : Dms.
Hypothesis HF : table_fields (d_fonts d).
Local Notation fonts := (d_fonts d).
Local Notation ch := (char_height_pixels (d_vms_cfg d)).

Lemma gap_nonneg p l g : Forall span_fields l -> LineGap d p l g -> 0 <= g.
Proof.
  intros HS [C|n C A|a b C A Ga Gb]; [lia| |].
  - apply Asked_inv in A as (x & s & y & -> & _ & E). rewrite Forall_forall in HS.
    destruct (HS s (in_elt _ _ _)) as (_ & HL & _). specialize (HL n E). unfold u8 in HL. lia.
  - destruct Ga as [(x & _ & Hx) _], Gb as [(y & _ & Hy) _].
    apply LeadOf_u8 in Hx; auto. apply LeadOf_u8 in Hy; auto. unfold half_up, u8 in *. lia.
Qed.

Lemma greatest_nonneg l h : Greatest (HeightOf fonts) l h -> 0 <= h.
Proof. intros [(x & _ & Hx) _]. apply HeightOf_u8 in Hx; auto. unfold u8 in Hx. lia. Qed.

(** The last line of a stack. *)
Lemma stack_last ls l v : StackHeight d (ls ++ [l]) v ->
  exists h, Greatest (HeightOf fonts) l h
    /\ ((ls = [] /\ v = h) \/ exists r p w g, ls = r ++ [p] /\ StackHeight d ls w /\ LineGap d p l g /\ v = w + g + h).
Proof.
  intros H. destruct ls as [|p r _] using rev_ind.
  - apply StackHeight_one in H. exists v. auto.
  - rewrite <- app_assoc in H. cbn [app] in H. inversion H as [E|l' h G E|r' p' l' w g h K G1 G2 E].
    + destruct r; discriminate E.
    + exfalso. apply (f_equal (@List.length (list Span))) in E. rewrite app_length in E. cbn in E. lia.
    + change (r' ++ [p'; l']) with (r' ++ [p'] ++ [l']) in E. change (r ++ [p; l]) with (r ++ [p] ++ [l]) in E.
      rewrite !app_assoc in E. apply app_inj_tail in E as [E ->]. pose proof E as E'. apply app_inj_tail in E' as [-> ->].
      exists h. split; auto. right. exists r, p, w, g. auto.
Qed.

Lemma stack_grows more : forall ls v w, Forall (Forall span_fields) more ->
  StackHeight d ls v -> StackHeight d (ls ++ more) w -> v <= w.
Proof.
  induction more as [|l more IH] using rev_ind; intros ls v w HS H1 H2.
  - rewrite app_nil_r in H2. pose proof (StackHeight_fun d ls v w H1 H2). lia.
  - apply Forall_app in HS as [HS1 HS2]. inversion HS2; subst. rewrite app_assoc in H2.
    apply stack_last in H2 as (h & G & [[E ->]|(r & p & u & g & E & H2 & G1 & ->)]).
    + apply app_eq_nil in E as [-> ->].
      assert (v = 0) as -> by (inversion H1; subst; auto; destruct r; discriminate). now apply greatest_nonneg in G.
    + specialize (IH ls v u HS1 H1 H2). apply greatest_nonneg in G. apply gap_nonneg in G1; auto. lia.
Qed.

Lemma placed_lines all s t ys yt hs ht : Forall span_fields all -> vms_fields (d_vms_cfg d) -> In s all -> In t all -> SameBlock s t ->
  s_rect t = s_rect s -> s_line s < s_line t ->
  PlacedY d all s ys -> PlacedY d all t yt -> HeightOf fonts s hs -> HeightOf fonts t ht ->
  ((s_jp s = JpMiddle -> on_boundary ch ht) -> ys + hs <= yt)
  /\ (s_line t = s_line s + 1 -> (s_jp s = JpMiddle -> ch <= 1) ->
      exists ls lt g m, Picked (OnLine s (s_line s)) all ls /\ Picked (OnLine s (s_line t)) all lt
        /\ LineGap d ls lt g /\ Greatest (HeightOf fonts) lt m /\ yt + ht = ys + hs + g + m).
Proof.
  intros HS HC Is It HB HR HL (us & fs & a & tot & bs & h1 & B & U & S1 & S2 & L & Y & H1 & ->)
    (ut & ft & a' & tot' & bt & h2 & B' & U' & S1' & S2' & L' & Y' & H2 & ->) K1 K2.
  rewrite (HeightOf_fun _ _ _ _ K1 H1), (HeightOf_fun _ _ _ _ K2 H2) in *. clear K1 K2 hs ht.
  assert (BT : BlockLines all s (ut ++ ft)).
  { destruct B' as [B1 B2]. unfold SameBlock in HB. split.
    - intros n l N. destruct (B1 n l N) as [N1 P]. split; auto.
      clear - HB P. induction P; constructor; auto; unfold OnLine, SameBlock in *; rewrite <- HB in *; auto.
    - intros u I J. apply B2; auto. unfold SameBlock in *. congruence. }
  pose proof (BlockLines_fun all s _ _ Is B BT) as E.
  assert (EU : us = firstn (List.length us) ut).
  { transitivity (firstn (List.length us) (us ++ fs)).
    - now rewrite firstn_app, Nat.sub_diag, firstn_all, app_nil_r.
    - rewrite E, firstn_app. replace (List.length us - List.length ut)%nat with O by lia. apply app_nil_r. }
  set (k := List.length us) in *.
  assert (ES : tot = tot') by (rewrite E in S2; eapply StackHeight_fun; eauto).
  assert (HM : Forall (Forall span_fields) (ut ++ ft)).
  { apply Forall_forall. intros l I. apply In_nth_error in I as (n & N). destruct BT as [B1 _].
    destruct (B1 n l N) as [_ P]. apply Forall_forall. intros x Ix. apply (Picked_in _ _ _ x P) in Ix as [Ix _].
    rewrite Forall_forall in HS. auto. }
  assert (LT : 0 <= s_line s).
  { destruct B as [_ B2]. apply (B2 s Is). reflexivity. }
  destruct ut as [|lt rt _] using rev_ind; [cbn [List.length] in U'; lia|].
  rewrite app_length in U'. cbn [List.length] in U'.
  apply stack_last in S1' as (m & G & C).
  assert (Hlen : (k <= List.length rt)%nat) by lia.
  rewrite firstn_app in EU. replace (k - List.length rt)%nat with O in EU by lia. cbn [firstn] in EU. rewrite app_nil_r in EU.
  assert (NT : nth_error ((rt ++ [lt]) ++ ft) (List.length rt) = Some lt).
  { rewrite <- app_assoc, nth_error_app2, Nat.sub_diag by lia. reflexivity. }
  destruct BT as [B1 _]. destruct (B1 _ _ NT) as [_ PT].
  assert (PL : Z.of_nat (List.length rt) = s_line t) by lia. rewrite PL in PT.
  destruct C as [[-> ->]|(r & p & w & g & Er & SK & Gp & ->)]; [cbn in PL; lia|].
  assert (AW : a <= w).
  { apply (stack_grows (skipn k rt) us a w); auto.
    - apply Forall_forall. intros l I. rewrite Forall_forall in HM. apply HM. rewrite <- app_assoc. apply in_or_app. left.
      rewrite <- (firstn_skipn k rt). apply in_or_app. auto.
    - rewrite EU, firstn_skipn. exact SK. }
  assert (G0 : 0 <= g).
  { eapply gap_nonneg; [|exact Gp]. rewrite Forall_forall in HM. apply HM. rewrite <- app_assoc. apply in_or_app. right. now left. }
  assert (HTm : 0 <= h2 <= m).
  { split; [apply HeightOf_u8 in H2; auto; unfold u8 in H2; lia|]. destruct G as [_ G]. apply (G t); auto.
    apply (Picked_in _ _ _ t PT). split; auto. split; auto. }
  assert (HJ : s_jp t = s_jp s) by exact HB. rewrite HJ, HR in Y'. subst tot'. rewrite HR in L'.
  assert (C0 : 0 <= ch) by (destruct HC as (? & ? & ? & ? & ? & ?); unfold u8, u16 in *; lia).
  split.
  - intros CB. unfold place_y in Y, Y'. destruct (s_jp s); try contradiction; subst bs bt; try lia.
    specialize (CB eq_refl).
    assert (M : forall x y, x <= y -> cell ch x <= cell ch y).
    { intros x y Hxy. unfold cell. destruct (Z.leb_spec ch 1); auto. pose proof (Z.div_le_mono x y ch ltac:(lia) Hxy). nia. }
    set (z := ry (s_rect s) - 1 + (rheight (s_rect s) - tot) / 2) in *.
    pose proof (cell_shift ch (z + a) h2 C0 CB). pose proof (M (z + a + h2) (z + (w + g + m)) ltac:(lia)). lia.
  - intros E1 CB.
    assert (Ek : k = List.length rt) by lia. rewrite Ek, firstn_all in EU.
    assert (w = a) as -> by (apply (StackHeight_fun d us); [rewrite EU; exact SK|exact S1]).
    assert (NP : nth_error (((r ++ [p]) ++ [lt]) ++ ft) (List.length r) = Some p).
    { rewrite <- !app_assoc, nth_error_app2, Nat.sub_diag by lia. reflexivity. }
    rewrite Er in B1. destruct (B1 _ _ NP) as [_ PP].
    assert (Z.of_nat (List.length r) = s_line s) as EP
      by (apply (f_equal (@List.length _)) in Er; rewrite app_length in Er; cbn [List.length] in Er; lia).
    rewrite EP in PP.
    exists p, lt, g, m. splits; auto.
    unfold place_y in Y, Y'. destruct (s_jp s); try contradiction; subst bs bt; try lia.
    specialize (CB eq_refl). unfold cell. replace (ch <=? 1) with true by lia. lia.
Qed.
End Rows.

Lemma text_lines d spans p q : Built d -> Forall span_fields spans -> Numbered spans -> Stacked spans ->
  (forall s, In s spans -> SpanOn p s) -> raster_small p ->
  render_text_spans Debug d spans p = Val (Ok q) ->
  Drawn d spans spans p q
  /\ forall s t ys yt hs ht, In s spans -> In t spans -> SameBlock s t -> s_rect t = s_rect s -> s_line s < s_line t ->
     PlacedY d spans s ys -> PlacedY d spans t yt -> HeightOf (d_fonts d) s hs -> HeightOf (d_fonts d) t ht ->
     ((s_jp s = JpMiddle -> on_boundary (char_height_pixels (d_vms_cfg d)) ht) -> ys + hs <= yt)
     /\ (s_line t = s_line s + 1 -> (s_jp s = JpMiddle -> char_height_pixels (d_vms_cfg d) <= 1) ->
         exists ls lt g m, Picked (OnLine s (s_line s)) spans ls /\ Picked (OnLine s (s_line t)) spans lt
           /\ LineGap d ls lt g /\ Greatest (HeightOf (d_fonts d)) lt m /\ yt + ht = ys + hs + g + m).
Proof.
  intros HB HS HN HK HO Hsm H. split; [now apply text_drawn|].
  destruct (Built_parts d HB) as (HF & HV & HC). intros. eapply placed_lines; eauto.
Qed.

Lemma pages_lines d ms ps : Built d -> Usable d -> FontsInCells d -> Yields Debug d ms (map Ok ps) ->
  PagesShow d (PageShown d (fun c vs p q => Orderly d (pl_earlier c ++ pl_upto c) vs ->
    let spans := texts d c [] vs in
    Drawn d spans spans p q
    /\ forall s t ys yt hs ht, In s spans -> In t spans -> SameBlock s t -> s_line s < s_line t ->
       PlacedY d spans s ys -> PlacedY d spans t yt -> HeightOf (d_fonts d) s hs -> HeightOf (d_fonts d) t ht ->
       ys + hs <= yt)) ms ps.
Proof.
  intros HB HU HFC H. apply (shown_impl d (TextsShown d)); [|now apply pictures].
  intros c vs p q _ [_ HS HNF _ _ HD] HO. apply orderly in HO as [HN HK]. cbv zeta. split; auto.
  intros s t ys yt hs ht Is It B L Y1 Y2 E1 E2. destruct (Built_parts d HB) as (HF & HV & HC).
  refine (proj1 (placed_lines d HF _ s t ys yt hs ht HS HC Is It B _ L Y1 Y2 E1 E2) _).
  - now rewrite (texts_rect d c vs [] s Is), (texts_rect d c vs [] t It).
  - intros _. destruct E2 as (f & Ff & ->). apply HFC; [eapply FontOf_In; eauto|].
    destruct Ff as [[Ef _] _]. unfold used_font. specialize (HNF t It). lia.
Qed.
