(** Consequences of the places given to spans. *)

From Coq Require Import String.
From Verif Require Import Base Str Multi Color Raster Font Graphic Config Sign Render
  Spec_Multi Spec_Font Spec_Sign Spec_Render Spec_Layout
  Proofs_Str Proofs_Norm Proofs_Color Proofs_Font Proofs_Glyph Proofs_Table Proofs_Tfon Proofs_Sign
  Proofs_Build Proofs_Iter Proofs_Machine Proofs_Pages Proofs_Horiz Proofs_Vert Proofs_Layout.
From Coq Require Import ZifyBool ZifyNat.
Ltac Zify.zify_post_hook ::= Z.div_mod_to_equations.
Open Scope list_scope.

Lemma Picked_app {A} (P : A -> Prop) a b g : Picked P (a ++ b) g ->
  exists g1 g2, g = g1 ++ g2 /\ Picked P a g1 /\ Picked P b g2.
Proof.
  revert g. induction a as [|x a IH]; intros g H; cbn [app] in H.
  - exists [], g. splits; auto. constructor.
  - inversion H as [|? ? g' Hx H'|? ? ? Hx H']; subst; destruct (IH _ H') as (g1 & g2 & -> & H1 & H2).
    + exists (x :: g1), g2. splits; auto. now apply Pk_in.
    + exists g1, g2. splits; auto. now apply Pk_out.
Qed.

Lemma Picked_in {A} (P : A -> Prop) l g x : Picked P l g -> (In x g <-> In x l /\ P x).
Proof.
  induction 1 as [|y l g Hy _ IH|y l g Hy _ IH]; cbn [In]; [tauto| |].
  - rewrite IH. split; [intros [->|[]]; auto|intros [[->|]]; auto].
  - rewrite IH. split; [intros []; auto|intros [[->|] K]; [contradiction|auto]].
Qed.

Lemma split_unique_elt {A} (s : A) : forall a b c e, ~ In s a -> ~ In s b -> a ++ s :: b = c ++ s :: e -> a = c /\ b = e.
Proof.
  induction a as [|x a IH]; intros b [|y c] e Ha Hb H; cbn [app] in H.
  - injection H as <-. auto.
  - injection H as <- ->. exfalso. apply Hb. apply in_elt.
  - injection H as -> _. exfalso. apply Ha. now left.
  - injection H as <- H. apply IH in H; auto; [destruct H; subst; auto|]. intros I. apply Ha. now right.
Qed.

Lemma SameRun_sym s t : SameRun s t -> SameRun t s.
Proof. unfold SameRun. intros (A & B & C). auto. Qed.

Lemma picked_split a s b pre post : Numbered (a ++ s :: b) ->
  Picked (SameRun s) (a ++ s :: b) (pre ++ s :: post) -> Picked (SameRun s) a pre /\ Picked (SameRun s) b post.
Proof.
  intros HN H. apply Picked_app in H. destruct H as (g1 & g2 & E & H1 & H2).
  inversion H2 as [|? ? g' Hx H'|? ? ? Hx H']; subst; [|exfalso; apply Hx; apply SameRun_refl].
  symmetry in E. apply split_unique_elt in E.
  - destruct E as [-> ->]. auto.
  - intros I. apply (Picked_in _ _ _ _ H1) in I. destruct I as [I _]. apply in_split in I. destruct I as (u & v & ->).
    pose proof (HN u s v s b ltac:(now rewrite <- app_assoc) (SameRun_refl s)). lia.
  - intros I. apply (Picked_in _ _ _ _ H') in I. destruct I as [I _]. apply in_split in I. destruct I as (u & v & ->).
    pose proof (HN a s u s v eq_refl (SameRun_refl s)). lia.
Qed.

Lemma boundary_add c a b : on_boundary c a -> on_boundary c b -> on_boundary c (a + b).
Proof. intros [A|(k & ->)]; [now left|]. intros [B|(m & ->)]; [now left|]. right. exists (k + m). lia. Qed.

Lemma cell_shift c n k : 0 <= c -> on_boundary c k -> cell c (n + k) = cell c n + k.
Proof.
  intros Hc B. unfold cell. destruct (Z.leb_spec c 1) as [L|L]; auto.
  destruct B as [B|(m & ->)]; [lia|]. rewrite Z.div_add by lia. lia.
Qed.

Section Place.
Variable d : Dms.
Hypothesis HF : table_fields (d_fonts d).
Hypothesis HC : vms_fields (d_vms_cfg d).
Local Notation fonts := (d_fonts d).
Local Notation cw := (char_width_pixels (d_vms_cfg d)).

Lemma run_offsets pre s mid t b b' w : Forall span_fields (pre ++ s :: mid ++ [t]) ->
  Before fonts pre s b -> Before fonts (pre ++ s :: mid) t b' -> SpanWidth fonts s w ->
  exists k, b' = b + w + k /\ 0 <= k /\ (mid = [] -> Gap fonts s t k)
    /\ ((forall x v, In x (s :: mid) -> SpanWidth fonts x v -> on_boundary cw v) ->
        (forall x y g, In x (s :: mid) -> In y (mid ++ [t]) -> Gap fonts x y g -> on_boundary cw g) ->
        on_boundary cw (w + k)).
Proof.
  intros HS HB HB' HW. apply Before_chain in HB, HB'. destruct HB as (u & C & Eb), HB' as (u' & C' & Eb').
  apply Chain_app in C'. destruct C' as (u1 & w1 & C1 & C2 & ->).
  rewrite (Chain_fun fonts _ _ _ _ C1 C) in *. clear C1 u1.
  apply Chain_inv in C2. destruct C2 as (g & w2 & v & G & W2 & C2 & ->).
  rewrite (SpanWidth_fun fonts _ _ _ W2 HW) in *. clear W2 w2.
  assert (E1 : b = u + g).
  { destruct (rev pre) as [|p q]; cbn [gap_to] in G; [lia|]. destruct Eb as (g' & G' & ->).
    now rewrite (Gap_fun fonts _ _ _ _ G' G). }
  apply Forall_app in HS. destruct HS as [_ HS]. inversion HS as [|? ? Fs HS']; subst.
  apply Forall_app in HS'. destruct HS' as [Fm Ft]. inversion Ft as [|? ? Ft' _]; subst.
  assert (Hv : 0 <= v). { eapply (Chain_nonneg fonts HF mid (Some s)); eauto. intros ? [= <-]; auto. }
  assert (exists l g2, rev (pre ++ s :: mid) = l :: rev (removelast (pre ++ s :: mid))
           /\ In l (s :: mid) /\ (mid = [] -> l = s) /\ Gap fonts l t g2 /\ b' = u + (g + w + v) + g2)
    as (l & g2 & _ & Il & Em & G2 & ->).
  { destruct (rev mid) as [|m0 q] eqn:Er.
    - apply (f_equal (@rev Span)) in Er. rewrite rev_involutive in Er. cbn in Er. subst mid.
      rewrite rev_app_distr in Eb'. cbn [rev app] in Eb'. destruct Eb' as (g2 & G2 & ->).
      exists s, g2. splits; auto; [|cbn; auto]. rewrite removelast_last, rev_app_distr. reflexivity.
    - apply (f_equal (@rev Span)) in Er. rewrite rev_involutive in Er. cbn in Er. subst mid.
      rewrite app_comm_cons, app_assoc in Eb'. rewrite rev_app_distr in Eb'. cbn [rev app] in Eb'.
      destruct Eb' as (g2 & G2 & ->). exists m0, g2. splits; auto.
      + rewrite app_comm_cons, app_assoc, removelast_last, rev_app_distr. reflexivity.
      + right. apply in_elt.
      + intros X. destruct (rev q); discriminate X. }
  assert (Fl : span_fields l). { destruct Il as [<-|Il]; auto. rewrite Forall_forall in Fm. auto. }
  pose proof (Gap_u8 fonts HF _ _ _ Fl Ft' G2) as U2. unfold u8 in U2.
  exists (v + g2). splits; try lia.
  - intros ->. inversion C2; subst. now rewrite <- (Em eq_refl).
  - intros BW BG.
    assert (BV : forall m p v, Chain fonts (Some p) m v -> In p (s :: mid) -> incl m mid -> on_boundary cw v).
    { clear - BW BG. induction m as [|x m IH]; intros p v C Ip Im.
      - inversion C; subst. right. exists 0. lia.
      - apply Chain_inv in C. destruct C as (g & w & u & G & W & C & ->). cbn [gap_to] in G.
        assert (Ix : In x mid) by (apply Im; now left).
        repeat apply boundary_add.
        + apply (BG p x g); auto. apply in_app_iff. auto.
        + apply (BW x w); auto. now right.
        + apply (IH x u); auto; [now right|]. intros y Iy. apply Im. now right. }
    apply boundary_add; [apply (BW s w); auto; now left|]. apply boundary_add.
    + apply (BV mid s v); auto; [now left|apply incl_refl].
    + apply (BG l t g2); auto. apply in_app_iff. right. now left.
Qed.

(** C44: the columns of two spans of one run. *)
Lemma run_columns a s b t c xs xt w : let all := a ++ s :: b ++ t :: c in
  Forall span_fields all -> Numbered all -> SameRun s t -> s_rect t = s_rect s ->
  PlacedX d all s xs -> PlacedX d all t xt -> SpanWidth fonts s w ->
  (s_jl s = JlCenter -> cw <= 1 \/ WholeCells d all s) ->
  xs + w <= xt /\ ((forall u, In u b -> ~ SameRun s u) -> exists g, Gap fonts s t g /\ xt = xs + w + g).
Proof.
  intros all HS HN R ER (pre & post & bs & tot & P1 & B1 & T1 & L1 & X1) (pre' & post' & bt & tot' & P2 & B2 & T2 & L2 & X2) HW HJ.
  destruct HC as (_ & Uc & _). unfold u8 in Uc.
  pose proof (picked_split a s (b ++ t :: c) pre post HN P1) as [Q1 Q2].
  assert (HN' : Numbered ((a ++ s :: b) ++ t :: c)) by (rewrite <- app_assoc; exact HN).
  assert (P2' : Picked (SameRun t) ((a ++ s :: b) ++ t :: c) (pre' ++ t :: post')) by (rewrite <- app_assoc; exact P2).
  pose proof (picked_split (a ++ s :: b) t c pre' post' HN' P2') as [Q3 Q4].
  assert (EQ : forall l g, Picked (SameRun t) l g <-> Picked (SameRun s) l g).
  { assert (EE : forall x, SameRun t x <-> SameRun s x).
    { intros x. destruct R as (R1 & R2 & R3). unfold SameRun. rewrite R1, R2, R3. tauto. }
    intros l. induction l as [|x l IH]; intros g; split; intros H; inversion H; subst; try constructor; auto;
      try (now apply EE); try (now apply IH); try (intros X; apply EE in X; contradiction). }
  apply EQ in Q3. apply Picked_app in Q3. destruct Q3 as (g1 & g2 & -> & Q5 & Q6).
  rewrite (Picked_fun _ _ _ _ Q5 Q1) in *. inversion Q6 as [|? ? mid Hx Q7|? ? ? Hx Q7]; subst; [|exfalso; apply Hx; apply SameRun_refl].
  assert (ET : tot = tot').
  { apply EQ in P2. rewrite (Picked_fun _ _ _ _ P2 P1) in T2.
    destruct pre; cbn [app] in T1, T2; apply RunWidth_chain in T1, T2; eapply Chain_fun; eauto. }
  subst tot'.
  assert (HSub : Forall span_fields (pre ++ s :: mid ++ [t])).
  { rewrite Forall_forall in *. intros x Ix. apply HS. unfold all.
    apply in_app_iff in Ix. destruct Ix as [Ix|[<-|Ix]]; [|apply in_elt|].
    - apply (Picked_in _ _ _ _ Q1) in Ix. apply in_app_iff. tauto.
    - apply in_app_iff in Ix. destruct Ix as [Ix|[<-|[]]].
      + apply (Picked_in _ _ _ _ Q7) in Ix. apply in_app_iff. right. right. apply in_app_iff. tauto.
      + apply in_app_iff. right. right. apply in_elt. }
  destruct (run_offsets pre s mid t bs bt w HSub B1 B2 HW) as (k & -> & Hk & Hm & Hc).
  assert (HX : xt = xs + w + k).
  { destruct R as (R1 & R2 & R3). rewrite R3, ER in X2. destruct (s_jl s) eqn:Ej; cbn [place_x] in X1, X2; try contradiction; try lia.
    destruct (HJ eq_refl) as [Lc|WC].
    - unfold cell in *. destruct (Z.leb_spec cw 1); lia.
    - assert (BD : on_boundary cw (w + k)).
      { assert (SR : forall x, In x (s :: mid ++ [t]) -> In x all /\ SameRun s x).
        { intros x [<-|Ix]; [split; [apply in_elt|apply SameRun_refl]|].
          apply in_app_iff in Ix. destruct Ix as [Ix|[<-|[]]].
          - apply (Picked_in _ _ _ _ Q7) in Ix. split; [|tauto]. apply in_app_iff. right. right. apply in_app_iff. tauto.
          - split; [|unfold SameRun; splits; congruence]. unfold all. rewrite app_comm_cons, app_assoc. apply in_elt. }
        apply Hc.
        - intros x v Ix Wx. destruct (SR x) as [Ia Rx].
          { destruct Ix; [now left|right; apply in_app_iff; auto]. }
          apply (proj1 (WC x Ia Rx)); auto.
        - intros x y g Ix Iy G. destruct (SR x) as [Ia Rx].
          { destruct Ix; [now left|right; apply in_app_iff; auto]. }
          destruct (SR y) as [Ib Ry]; [now right|]. apply (proj2 (WC x Ia Rx) y g); auto. }
      rewrite X2, X1. rewrite <- (Z.add_assoc bs w k), Z.add_assoc. rewrite cell_shift; auto; lia. }
  split; [lia|]. intros N.
  assert (mid = []) as ->.
  { destruct mid as [|x mid]; auto. exfalso. destruct (proj1 (Picked_in _ _ _ x Q7)) as [Ix Rx]; [now left|].
    apply (N x Ix Rx). }
  exists k. auto.
Qed.

(** ** C45 *)

Lemma first_before all s pre post : Numbered all -> FirstOfRun all s -> Picked (SameRun s) all (pre ++ s :: post) -> pre = [].
Proof.
  intros HN (a & b & -> & N) P. apply picked_split in P; auto. destruct P as [P _].
  destruct pre as [|x pre]; auto. exfalso. destruct (proj1 (Picked_in _ _ _ x P)) as [I R]; [now left|]. now apply (N x).
Qed.
Lemma last_after all s pre post : Numbered all -> LastOfRun all s -> Picked (SameRun s) all (pre ++ s :: post) -> post = [].
Proof.
  intros HN (a & b & -> & N) P. apply picked_split in P; auto. destruct P as [_ P].
  destruct post as [|x post]; auto. exfalso. destruct (proj1 (Picked_in _ _ _ x P)) as [I R]; [now left|]. now apply (N x).
Qed.

Lemma Before_nil s b : Before fonts [] s b -> b = 0.
Proof. intros H. apply Before_chain in H. cbn in H. destruct H as (u & C & ->). inversion C; auto. Qed.

Lemma Before_last pre s b w tot : Before fonts pre s b -> SpanWidth fonts s w -> RunWidth fonts (pre ++ [s]) tot -> tot = b + w.
Proof.
  intros B W R. apply Before_chain in B. destruct B as (u & C & E).
  assert (R' : Chain fonts None (pre ++ [s]) tot).
  { destruct pre; cbn [app] in *; now apply RunWidth_chain. }
  apply Chain_app in R'. destruct R' as (u' & v & C1 & C2 & ->). rewrite (Chain_fun fonts _ _ _ _ C1 C) in *.
  apply Chain_inv in C2. destruct C2 as (g & w' & z & G & W' & Cz & ->). inversion Cz; subst.
  rewrite (SpanWidth_fun fonts _ _ _ W' W). destruct (rev pre); cbn [gap_to] in G; [lia|].
  destruct E as (g' & G' & ->). rewrite (Gap_fun fonts _ _ _ _ G' G). lia.
Qed.

Lemma left_edge all s x : Numbered all -> FirstOfRun all s -> s_jl s = JlLeft -> PlacedX d all s x ->
  x = rx (s_rect s) - 1.
Proof.
  intros HN HL J (pre & post & b & tot & P & B & T & L & X). rewrite (first_before _ _ _ _ HN HL P) in *.
  rewrite (Before_nil _ _ B) in *. rewrite J in X. cbn [place_x] in X. lia.
Qed.

Lemma right_edge all s x w : Numbered all -> LastOfRun all s -> s_jl s = JlRight -> PlacedX d all s x ->
  SpanWidth fonts s w -> x + w = rx (s_rect s) - 1 + rwidth (s_rect s).
Proof.
  intros HN HL J (pre & post & b & tot & P & B & T & L & X) W. rewrite (last_after _ _ _ _ HN HL P) in *.
  pose proof (Before_last _ _ _ _ _ B W T). rewrite J in X. cbn [place_x] in X. lia.
Qed.

Lemma center_margins all s x : Numbered all -> FirstOfRun all s -> s_jl s = JlCenter -> PlacedX d all s x ->
  exists run tot x0, Picked (SameRun s) all run /\ RunWidth fonts run tot /\ x = cell cw x0
    /\ let left := x0 - (rx (s_rect s) - 1) in
       let right := rx (s_rect s) - 1 + rwidth (s_rect s) - (x0 + tot) in
       0 <= left /\ 0 <= right /\ left <= right <= left + 1.
Proof.
  intros HN HL J (pre & post & b & tot & P & B & T & L & X). rewrite (first_before _ _ _ _ HN HL P) in *.
  rewrite (Before_nil _ _ B) in *. rewrite J in X. cbn [place_x] in X.
  exists ([] ++ s :: post), tot, (rx (s_rect s) - 1 + (rwidth (s_rect s) - tot) / 2 + 0).
  rewrite (first_before _ _ _ _ HN HL P) in P. splits; auto. cbv zeta. lia.
Qed.

Lemma StackHeight_one l h : StackHeight d [l] h -> Greatest (HeightOf fonts) l h.
Proof.
  intros H. inversion H as [|? ? G|r p q v g k K G1 G2 E]; subst; auto.
  exfalso. apply (f_equal (@List.length (list Span))) in E. rewrite app_length in E. cbn in E. lia.
Qed.

Lemma top_edge all s y h m l : s_jp s = JpTop -> s_line s = 0 -> PlacedY d all s y -> HeightOf fonts s h ->
  Picked (OnLine s 0) all l -> Greatest (HeightOf fonts) l m ->
  y + h = ry (s_rect s) - 1 + m.
Proof.
  intros J L0 (upto & after & a & tot & base & h' & B & U & S1 & S2 & L & Y & H' & ->) H P G.
  rewrite (HeightOf_fun _ _ _ _ H H'). rewrite L0 in U. destruct upto as [|l0 [|]]; cbn in U; try lia.
  apply StackHeight_one in S1. destruct B as [B _]. destruct (B O l0 eq_refl) as [_ P0]. cbn in P0.
  rewrite (Picked_fun _ _ _ _ P0 P) in S1. rewrite (Greatest_fun _ _ _ _ S1 G) in Y.
  rewrite J in Y. cbn [place_y] in Y. lia.
Qed.

Lemma last_line_after all s upto after : In s all -> OnLastLine all s -> BlockLines all s (upto ++ after) ->
  Z.of_nat (List.length upto) = s_line s + 1 -> after = [].
Proof.
  intros I HL [B1 B2] E. destruct after as [|l after]; auto. exfalso.
  destruct (B1 (List.length upto) l) as [N P].
  { rewrite nth_error_app2 by lia. rewrite Nat.sub_diag. reflexivity. }
  destruct l as [|t l]; [congruence|]. destruct (proj1 (Picked_in _ _ _ t P)) as [It [Bt Lt]]; [now left|].
  specialize (HL t It Bt). lia.
Qed.

Lemma StackHeight_fun : forall ls v w, StackHeight d ls v -> StackHeight d ls w -> v = w.
Proof.
  intros ls v w H. revert w. induction H as [|l h G|r p l v g h H IH G K]; intros w H2.
  - inversion H2 as [| |r p l ? ? ? ? ? ? E]; auto. destruct r; discriminate E.
  - apply StackHeight_one in H2. eapply Greatest_fun; eauto.
  - inversion H2 as [E|l' h' G' E|r' p' l' v' g' h' H' G' K' E]; subst.
    + destruct r; discriminate E.
    + exfalso. apply (f_equal (@List.length (list Span))) in E. rewrite app_length in E. cbn in E. lia.
    + assert (E1 : (r' ++ [p']) ++ [l'] = (r ++ [p]) ++ [l]) by (rewrite <- !app_assoc; exact E).
      apply app_inj_tail in E1. destruct E1 as [E1 ->]. apply app_inj_tail in E1. destruct E1 as [-> ->].
      rewrite (IH _ H'). rewrite (Greatest_fun _ _ _ _ K K'). f_equal. f_equal.
      inversion G as [C|n C A|a b C A Ga Gb]; inversion G' as [C'|n' C' A'|a' b' C' A' Ga' Gb']; subst; try congruence.
      * pose proof (Asked_fun _ _ _ A A'). congruence.
      * pose proof (Asked_fun _ _ _ A A'). congruence.
      * pose proof (Asked_fun _ _ _ A A'). congruence.
      * now rewrite (Greatest_fun _ _ _ _ Ga Ga'), (Greatest_fun _ _ _ _ Gb Gb').
Qed.

Lemma bottom_edge all s y h : In s all -> s_jp s = JpBottom -> OnLastLine all s -> PlacedY d all s y -> HeightOf fonts s h ->
  y + h = ry (s_rect s) - 1 + rheight (s_rect s).
Proof.
  intros I J LL (upto & after & a & tot & base & h' & B & U & S1 & S2 & L & Y & H' & ->) H.
  rewrite (HeightOf_fun _ _ _ _ H H'). rewrite (last_line_after _ _ _ _ I LL B U) in *. rewrite app_nil_r in S2.
  rewrite (StackHeight_fun _ _ _ S1 S2) in Y. rewrite J in Y. cbn [place_y] in Y. lia.
Qed.

(** A block in the middle: its rows start at [y0]. *)
Lemma middle_margins all s y h : s_jp s = JpMiddle -> PlacedY d all s y -> HeightOf fonts s h ->
  exists ls tot y0 n a, BlockLines all s ls /\ StackHeight d ls tot
    /\ Z.of_nat n = s_line s + 1 /\ StackHeight d (firstn n ls) a
    /\ y + h = cell (char_height_pixels (d_vms_cfg d)) (y0 + a)
    /\ let above := y0 - (ry (s_rect s) - 1) in
       let below := ry (s_rect s) - 1 + rheight (s_rect s) - (y0 + tot) in
       0 <= above /\ 0 <= below /\ above <= below <= above + 1.
Proof.
  intros J (upto & after & a & tot & base & h' & B & U & S1 & S2 & L & Y & H' & ->) H.
  rewrite (HeightOf_fun _ _ _ _ H H'). rewrite J in Y. cbn [place_y] in Y.
  exists (upto ++ after), tot, (ry (s_rect s) - 1 + (rheight (s_rect s) - tot) / 2), (List.length upto), a.
  splits; auto; [|lia|cbv zeta; lia]. rewrite firstn_app, Nat.sub_diag, firstn_all. cbn. now rewrite app_nil_r.
Qed.
End Place.

Lemma build_same md b d : build md b = Val (Ok d) ->
  d_sign_cfg d = b_sign_cfg b /\ d_fonts d = b_fonts b /\ d_vms_cfg d = b_vms_cfg b /\ d_multi_cfg d = b_multi_cfg b.
Proof.
  intros H. unfold build in H.
  destruct (sign_cfg_validate md (b_sign_cfg b) (b_vms_cfg b)) as [[u|e]| |]; try discriminate H.
  cbn [bind lift_err try] in H.
  destruct (multi_cfg_validate (b_multi_cfg b)) as [[]|e]; try discriminate H. cbn [bind lift_err try] in H.
  destruct (font_table_validate (b_fonts b)) as [[[]|e]| |]; try discriminate H. cbn [bind lift_err try] in H.
  destruct (graphic_table_validate _ _ _) as [[]|e]; try discriminate H. cbn [bind lift_err try] in H.
  inversion H; subst d. auto.
Qed.

Lemma Built_parts d : Built d -> table_fields (d_fonts d) /\ valid_fonts (d_fonts d) /\ vms_fields (d_vms_cfg d).
Proof.
  intros (md & b & Hb & H). destruct (build_valid md b d Hb H) as (V & _).
  destruct (build_same md b d H) as (_ & E1 & E2 & _). destruct Hb as (_ & Hv & _ & Ht & _).
  rewrite E1, E2 in *. auto.
Qed.

(** ** Whole lists of spans *)

Lemma in_order spans md d r : ~ OutOfOrder spans -> render_text_spans md d spans r = render_spans_loop md d spans spans r.
Proof.
  intros H. unfold render_text_spans. destruct (check_justification_cases spans) as [[E _]|[_ X]]; [|contradiction].
  now rewrite E.
Qed.

Lemma text_inside d spans p q : Built d -> Forall span_fields spans ->
  (forall s, In s spans -> SpanOn p s /\ SoundFont d (rs_font (span_state s)) /\ KeepsCells d s) -> raster_small p ->
  render_text_spans Debug d spans p = Val (Ok q) ->
  r_width q = r_width p /\ r_height q = r_height p
  /\ forall x y, (forall s, In s spans -> ~ InRect (s_rect s) x y) -> r_pixel q x y = r_pixel p x y.
Proof.
  intros HB HS HO Hsm H. destruct (Built_parts d HB) as (HF & HV & HC).
  unfold render_text_spans in H. apply try_ok in H. destruct H as (u & _ & H).
  apply (spans_frame d HF HV HC spans HS spans p q); auto. apply incl_refl.
Qed.

Lemma text_drawn d spans p q : Built d -> Forall span_fields spans -> Numbered spans -> Stacked spans ->
  (forall s, In s spans -> SpanOn p s) -> raster_small p ->
  render_text_spans Debug d spans p = Val (Ok q) -> Drawn d spans spans p q.
Proof.
  intros HB HS HN HK HO Hsm H. destruct (Built_parts d HB) as (HF & HV & HC).
  unfold render_text_spans in H. apply try_ok in H. destruct H as (u & _ & H).
  apply (spans_drawn d HF HV HC spans HS HN HK spans p q); auto. apply incl_refl.
Qed.

Lemma text_fits d spans p : Built d -> Forall span_fields spans ->
  Stacked spans -> AllSet (d_fonts d) spans -> SumsFit d spans -> ~ OutOfOrder spans ->
  (forall s, In s spans -> SpanOn p s /\ SoundFont d (rs_font (span_state s)) /\ KeepsCells d s /\ Placeable s) -> raster_small p ->
  exists r, render_text_spans Debug d spans p = Val r
    /\ ((exists q, r = Ok q) \/ r = Err STextTooBig)
    /\ (r = Err STextTooBig <-> exists s, In s spans /\ (TooWide d spans s \/ TooTall d spans s)).
Proof.
  intros HB HS HK HA HSF HOO HO Hsm. destruct (Built_parts d HB) as (HF & HV & HC). rewrite in_order by auto.
  destruct (spans_total d HF HV HC spans HS HK HA HSF spans p (incl_refl _) HO Hsm) as [[(q & E) N]|[E X]].
  - exists (Ok q). splits; eauto. split; [discriminate|]. intros (s & I & T). exfalso. now apply (N s).
  - exists (Err STextTooBig). splits; auto. tauto.
Qed.

Lemma text_columns d spans p q : Built d -> Forall span_fields spans -> Numbered spans -> Stacked spans ->
  (forall s, In s spans -> SpanOn p s) -> raster_small p ->
  render_text_spans Debug d spans p = Val (Ok q) ->
  Drawn d spans spans p q
  /\ forall a s b t c xs xt w, spans = a ++ s :: b ++ t :: c -> SameRun s t -> s_rect t = s_rect s ->
     (s_jl s = JlCenter -> char_width_pixels (d_vms_cfg d) <= 1 \/ WholeCells d spans s) ->
     PlacedX d spans s xs -> PlacedX d spans t xt -> SpanWidth (d_fonts d) s w ->
     xs + w <= xt
     /\ ((forall u, In u b -> ~ SameRun s u) -> exists g, Gap (d_fonts d) s t g /\ xt = xs + w + g).
Proof.
  intros HB HS HN HK HO Hsm H. split; [now apply text_drawn|].
  intros a s b t c xs xt w -> R ER J X1 X2 W. destruct (Built_parts d HB) as (HF & HV & HC).
  now apply (run_columns d HF HC a s b t c xs xt w).
Qed.

Lemma text_sides d spans p q : Built d -> Forall span_fields spans -> Numbered spans -> Stacked spans ->
  (forall s, In s spans -> SpanOn p s) -> raster_small p ->
  render_text_spans Debug d spans p = Val (Ok q) ->
  Drawn d spans spans p q
  /\ forall s x, PlacedX d spans s x ->
     let left := rx (s_rect s) - 1 in let right := left + rwidth (s_rect s) in
     (s_jl s = JlLeft -> FirstOfRun spans s -> x = left)
     /\ (s_jl s = JlRight -> LastOfRun spans s -> forall w, SpanWidth (d_fonts d) s w -> x + w = right)
     /\ (s_jl s = JlCenter -> FirstOfRun spans s ->
           exists run w x0, Picked (SameRun s) spans run /\ RunWidth (d_fonts d) run w
             /\ x = cell (char_width_pixels (d_vms_cfg d)) x0
             /\ 0 <= x0 - left /\ x0 - left <= right - (x0 + w) <= x0 - left + 1).
Proof.
  intros HB HS HN HK HO Hsm H. split; [now apply text_drawn|].
  destruct (Built_parts d HB) as (HF & HV & HC).
  intros s x X. cbv zeta. splits.
  - intros J F. now apply (left_edge d spans).
  - intros J F w W. now apply (right_edge d spans).
  - intros J F. destruct (center_margins d spans s x HN F J X) as (run & w & x0 & P & R & E & M).
    cbv zeta in M. exists run, w, x0. splits; auto; lia.
Qed.

Lemma text_rows d spans p q : Built d -> Forall span_fields spans -> Numbered spans -> Stacked spans ->
  (forall s, In s spans -> SpanOn p s) -> raster_small p ->
  render_text_spans Debug d spans p = Val (Ok q) ->
  Drawn d spans spans p q
  /\ forall s y h, In s spans -> PlacedY d spans s y -> HeightOf (d_fonts d) s h ->
     let top := ry (s_rect s) - 1 in let bottom := top + rheight (s_rect s) in
     (s_jp s = JpTop -> s_line s = 0 -> forall l m, Picked (OnLine s 0) spans l ->
        Greatest (HeightOf (d_fonts d)) l m -> y + h = top + m)
     /\ (s_jp s = JpBottom -> OnLastLine spans s -> y + h = bottom)
     /\ (s_jp s = JpMiddle ->
           exists ls m y0 n a, BlockLines spans s ls /\ StackHeight d ls m
             /\ Z.of_nat n = s_line s + 1 /\ StackHeight d (firstn n ls) a
             /\ y + h = cell (char_height_pixels (d_vms_cfg d)) (y0 + a)
             /\ 0 <= y0 - top /\ y0 - top <= bottom - (y0 + m) <= y0 - top + 1).
Proof.
  intros HB HS HN HK HO Hsm H. split; [now apply text_drawn|].
  destruct (Built_parts d HB) as (HF & HV & HC).
  intros s y h I Y Hh. cbv zeta. splits.
  - intros J L l m Pl G. now apply (top_edge d spans s y h m l).
  - intros J L. now apply (bottom_edge d spans).
  - intros J. destruct (middle_margins d spans s y h J Y Hh) as (ls & m & y0 & n & a & B & K & N & A & E & M).
    cbv zeta in M. exists ls, m, y0, n, a. splits; auto; lia.
Qed.
