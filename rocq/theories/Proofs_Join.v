(** Drawing the spans of joined texts. *)

From Coq Require Import String ZifyBool ZifyNat.
From Verif Require Import Base Str Multi Color Raster Font Graphic Config Sign Render
  Spec_Multi Spec_Color Spec_Font Spec_Tfon Spec_Graphic Spec_Sign Spec_Render Spec_Layout Spec_Page Spec_Join
  Proofs_Str Proofs_Font Proofs_Glyph Proofs_Iter Proofs_Color Proofs_Sign Proofs_Machine Proofs_Pages Proofs_Count
  Proofs_Render Proofs_Norm Proofs_Build Proofs_Horiz Proofs_Vert Proofs_Layout Proofs_Place.
Open Scope list_scope.
Ltac Zify.zify_post_hook ::= Z.div_mod_to_equations.

(** ** Spans that differ in their number, and joined spans *)

Definition StSame (x y : Span) : Prop := exists n, span_state y = set_span (span_state x) n.

Inductive Same : Span -> Span -> Prop :=
| Same_text st t n : Same (SpText st t) (SpText (set_span st n) t)
| Same_hex st t n : Same (SpHex st t) (SpHex (set_span st n) t).

Inductive LJ : list Span -> list Span -> Prop :=
| LJ_nil : LJ [] []
| LJ_cons x y l m : Same x y -> LJ l m -> LJ (x :: l) (y :: m)
| LJ_join st t u k n l m : t <> [] -> u <> [] -> LJ l m ->
    LJ (SpText st t :: SpText (set_span st k) u :: l) (SpText (set_span st n) (t ++ u) :: m).

Lemma Same_refl x : Same x x.
Proof.
  destruct x as [st t|st t].
  - replace st with (set_span st (rs_span st)) at 2 by now destruct st. constructor.
  - replace st with (set_span st (rs_span st)) at 2 by now destruct st. constructor.
Qed.
Lemma Same_state x y : Same x y -> StSame x y.
Proof. intros []; eexists; reflexivity. Qed.
Lemma LJ_refl l : LJ l l.
Proof. induction l; constructor; auto using Same_refl. Qed.

Lemma LJ_app a b c e : LJ a b -> LJ c e -> LJ (a ++ c) (b ++ e).
Proof. intros H K. induction H; cbn; auto; [now apply LJ_cons|now apply LJ_join]. Qed.

Lemma StSame_trans x y z : StSame x y -> StSame y z -> StSame x z.
Proof. intros [n E] [m F]. exists m. rewrite F, E. now destruct (span_state x). Qed.

Ltac stsame H := let n := fresh "n" in let E := fresh "E" in destruct H as [n E].

Section State.
Variable fonts : FontTable.

Lemma st_font x y f : StSame x y -> (FontOf fonts x f <-> FontOf fonts y f).
Proof. intros [n E]. unfold FontOf. rewrite E. reflexivity. Qed.
Lemma st_spacing x y f : StSame x y -> spacing_in y f = spacing_in x f.
Proof. intros [n E]. unfold spacing_in. rewrite E. reflexivity. Qed.
Lemma st_run x y z : StSame x y -> (SameRun z x <-> SameRun z y).
Proof. intros [n E]. unfold SameRun, s_jp, s_line, s_jl. rewrite E. reflexivity. Qed.

Lemma st_gap x y x' y' g : StSame x y -> StSame x' y' -> Gap fonts x x' g -> Gap fonts y y' g.
Proof.
  intros S S' [n E|f h E F1 F2].
  - apply Gap_set. destruct S' as [k K]. now rewrite K.
  - rewrite <- (st_spacing x y f S), <- (st_spacing x' y' h S'). apply Gap_avg.
    + destruct S' as [k K]. now rewrite K.
    + now apply (st_font x y).
    + now apply (st_font x' y').
Qed.

Lemma same_shows x y t : Same x y -> (ShowsText x t <-> ShowsText y t).
Proof. intros [st u n|st u n]; split; intros H; inversion H; subst; constructor; auto. Qed.

Lemma same_set x y f cs : Same x y -> (SetWith fonts x f cs <-> SetWith fonts y f cs).
Proof.
  intros S. unfold SetWith. rewrite (st_font x y f (Same_state _ _ S)).
  split; intros (F & t & HT & HS); (split; [exact F|]); exists t; (split; [|exact HS]); now apply (same_shows x y t S).
Qed.

Lemma same_width x y w : Same x y -> SpanWidth fonts x w -> SpanWidth fonts y w.
Proof.
  intros S (f & cs & HW & ->). exists f, cs. split; [now apply (same_set x y)|].
  now rewrite (st_spacing x y f (Same_state _ _ S)).
Qed.

(** ** Widths *)

Definition Thick (s : Span) : Prop :=
  forall f c, FontOf fonts s f -> In c (f_characters f) -> used c -> 1 <= c_width c.

Lemma drop_thick ws : Forall (fun w => 1 <= w) ws -> drop_zeros ws = ws.
Proof. destruct ws as [|w ws]; auto. intros H. inversion H; subst. destruct w; try reflexivity. lia. Qed.

Lemma spread_app cs a b : a <> [] -> b <> [] -> spread cs (a ++ b) = spread cs a + cs + spread cs b.
Proof.
  intros NA NB. induction a as [|x a IH]; [congruence|]. destruct a as [|y a].
  - cbn. destruct b; [congruence|reflexivity].
  - change (spread cs ((x :: y :: a) ++ b)) with (x + cs + spread cs ((y :: a) ++ b)).
    change (spread cs (x :: y :: a)) with (x + cs + spread cs (y :: a)).
    rewrite IH by discriminate. lia.
Qed.

Lemma spells_app f t u cs ds : Spells f t cs -> Spells f u ds -> Spells f (t ++ u) (cs ++ ds).
Proof. unfold Spells. apply Forall2_app. Qed.

Lemma spells_used f t cs c : Spells f t cs -> ~ In 0 t -> In c cs -> used c.
Proof.
  intros S. induction S as [|ch e t cs Hc S IH]; intros N I; [destruct I|]. destruct I as [<-|I].
  - destruct Hc as (_ & E & _). unfold used. rewrite E. intros ->. apply N. now left.
  - apply IH; auto. intros I'. apply N. now right.
Qed.

Lemma spells_thick s f t cs : Thick s -> FontOf fonts s f -> ~ In 0 t -> Spells f t cs ->
  Forall (fun w => 1 <= w) (map c_width cs).
Proof.
  intros HT HF N H. apply Forall_forall. intros w I. apply in_map_iff in I as (c & <- & I).
  apply (HT f c); auto; [now apply (Spells_In f t cs)|now apply (spells_used f t cs)].
Qed.

Lemma join_gap st t u k f : FontOf fonts (SpText st t) f ->
  Gap fonts (SpText st t) (SpText (set_span st k) u) (spacing_in (SpText st t) f).
Proof.
  intros HF. unfold spacing_in. cbn [span_state]. destruct (rs_char_spacing st) as [n|] eqn:E.
  - apply Gap_set. cbn. exact E.
  - replace (f_char_spacing f) with
      (half_up (spacing_in (SpText st t) f + spacing_in (SpText (set_span st k) u) f)).
    + apply Gap_avg; auto; exact HF.
    + unfold spacing_in, half_up. cbn. rewrite E. lia.
Qed.

Lemma join_width st t u k n w v f : t <> [] -> u <> [] -> FontOf fonts (SpText st t) f -> Thick (SpText st t) ->
  ~ In 0 t -> ~ In 0 u ->
  SpanWidth fonts (SpText st t) w -> SpanWidth fonts (SpText (set_span st k) u) v ->
  SpanWidth fonts (SpText (set_span st n) (t ++ u)) (w + spacing_in (SpText st t) f + v).
Proof.
  intros NT NU HF HT Z1 Z2 (f1 & cs & (F1 & t' & S1 & P1) & ->) (f2 & ds & (F2 & u' & S2 & P2) & ->).
  inversion S1; subst t'. inversion S2; subst u'.
  assert (f1 = f) as -> by now apply (FontOf_fun fonts (SpText st t)).
  assert (f2 = f) as -> by now apply (FontOf_fun fonts (SpText st t)).
  exists f, (cs ++ ds). split; [split; [exact F1|]; exists (t ++ u); split; [constructor|now apply spells_app]|].
  pose proof (spells_thick (SpText st t) f t cs HT HF Z1 P1) as T1.
  pose proof (spells_thick (SpText st t) f u ds HT HF Z2 P2) as T2.
  unfold line_width. rewrite map_app, !drop_thick; auto; [|apply Forall_app; auto].
  change (spacing_in (SpText (set_span st k) u) f) with (spacing_in (SpText st t) f).
  change (spacing_in (SpText (set_span st n) (t ++ u)) f) with (spacing_in (SpText st t) f).
  rewrite spread_app; auto.
  - destruct cs; [|discriminate]. inversion P1. congruence.
  - destruct ds; [|discriminate]. inversion P2. congruence.
Qed.

Lemma clean_text st t : span_fields (SpText st t) -> ~ In 0 t.
Proof. intros (_ & _ & _ & _ & t' & H & N). inversion H; subst. exact N. Qed.

Definition osame (p q : option Span) : Prop :=
  match p, q with
  | None, None => True
  | Some x, Some y => StSame x y
  | _, _ => False
  end.

Lemma chain_join l m : LJ l m -> Forall span_fields l -> (forall s, In s l -> Thick s) ->
  forall p q v, osame p q -> Chain fonts p l v -> Chain fonts q m v.
Proof.
  induction 1 as [|x y l m S L IH|st t u k n l m NT NU L IH]; intros HS HT p q v O C.
  - inversion C; subst. constructor.
  - inversion HS; subst. apply Chain_inv in C as (g & w & r & G & W & C & ->). constructor.
    + destruct p, q; cbn in *; auto; try contradiction. eapply st_gap; eauto using Same_state.
    + now apply (same_width x y).
    + apply (IH H2) with (p := Some x); auto.
      * intros s I. apply HT. now right.
      * cbn. now apply Same_state.
  - inversion HS as [|? ? S1 HS']; subst. inversion HS' as [|? ? S2 HS'']; subst.
    apply Chain_inv in C as (g & w & r & G & W & C & ->). apply Chain_inv in C as (g' & v & r' & G' & W' & C & ->).
    pose proof W as (f & cs & (HF & _) & _).
    assert (g' = spacing_in (SpText st t) f) as -> by (eapply Gap_fun; [exact G'|]; now apply join_gap).
    replace (g + w + (spacing_in (SpText st t) f + v + r')) with (g + (w + spacing_in (SpText st t) f + v) + r') by lia.
    constructor.
    + destruct p as [p|], q as [q|]; cbn in *; auto; try contradiction. eapply st_gap; [exact O| |exact G].
      exists n. reflexivity.
    + apply (join_width st t u k n w v f); auto; eauto using clean_text. apply HT. now left.
    + apply (IH HS'') with (p := Some (SpText (set_span st k) u)); auto.
      * intros s I. apply HT. right. now right.
      * cbn. exists n. reflexivity.
Qed.
End State.

(** ** Places in a run *)

Lemma LJ_filter (f : RenderState -> bool) : (forall st n, f (set_span st n) = f st) -> forall l m, LJ l m ->
  LJ (filter (fun s => f (span_state s)) l) (filter (fun s => f (span_state s)) m).
Proof.
  intros HF. induction 1 as [|x y l m S L IH|st t u k n l m NT NU L IH]; cbn [filter].
  - constructor.
  - destruct (Same_state _ _ S) as [n E]. rewrite E, HF. destruct (f (span_state x)); auto. now constructor.
  - cbn [span_state]. rewrite !HF. destruct (f st); auto. now constructor.
Qed.

Lemma LJ_last l m : LJ l m -> osame (match rev l with [] => None | x :: _ => Some x end) (match rev m with [] => None | x :: _ => Some x end).
Proof.
  assert (G : forall l m, LJ l m -> forall p q, osame p q ->
    osame (match rev l with [] => p | x :: _ => Some x end) (match rev m with [] => q | x :: _ => Some x end)).
  { intros l' m' H. induction H as [|x y a b S L IH|st t u k n a b NT NU L IH]; intros p q O; auto.
    - specialize (IH (Some x) (Some y) (Same_state _ _ S)). cbn [rev].
      destruct (rev a) as [|x' a'], (rev b) as [|y' b']; cbn [app]; exact IH.
    - specialize (IH (Some (SpText (set_span st k) u)) (Some (SpText (set_span st n) (t ++ u)))).
      assert (O' : osame (Some (SpText (set_span st k) u)) (Some (SpText (set_span st n) (t ++ u)))) by (exists n; reflexivity).
      specialize (IH O'). cbn [rev]. destruct (rev a) as [|x' a'], (rev b) as [|y' b']; cbn [app]; exact IH. }
  intros H. now apply G.
Qed.

Lemma run_of_st all x y : StSame x y -> run_of all y = run_of all x.
Proof. intros [n E]. unfold run_of. apply filter_ext. intros t. rewrite E. reflexivity. Qed.

Section Draw.
Variable d : Dms.
Hypothesis HF : table_fields (d_fonts d).
Hypothesis HV : valid_fonts (d_fonts d).
Hypothesis HC : vms_fields (d_vms_cfg d).
Local Notation fonts := (d_fonts d).
Local Notation cw := (char_width_pixels (d_vms_cfg d)).

Lemma run_join l m x y : LJ l m -> StSame x y -> LJ (run_of l x) (run_of m y).
Proof.
  intros L S. rewrite (run_of_st m x y S). unfold run_of.
  apply (LJ_filter (matches_span (span_state x))); auto.
Qed.

Lemma before_run a s b pre post : Numbered (a ++ s :: b) -> run_of (a ++ s :: b) s = pre ++ s :: post -> pre = run_of a s.
Proof.
  intros HN E. assert (P : Picked (SameRun s) (a ++ s :: b) (pre ++ s :: post)) by (apply run_of_picked; auto).
  apply picked_split in P as [P _]; auto. now apply run_of_picked in P.
Qed.

Lemma horiz_join X x Y X' y Y' b a :
  Forall span_fields (X ++ x :: Y) -> Forall span_fields (X' ++ y :: Y') ->
  Numbered (X ++ x :: Y) -> Numbered (X' ++ y :: Y') ->
  (forall s, In s (X ++ x :: Y) -> Thick fonts s) ->
  StSame x y -> LJ X X' -> LJ (X ++ x :: Y) (X' ++ y :: Y') ->
  offset_horiz Debug d (X ++ x :: Y) x = Val (Ok (b, a)) ->
  offset_horiz Debug d (X' ++ y :: Y') y = Val (Ok (b, a)).
Proof.
  intros F1 F2 N1 N2 HT S LX LL H.
  assert (I1 : In x (X ++ x :: Y)) by apply in_elt. assert (I2 : In y (X' ++ y :: Y')) by apply in_elt.
  destruct (horiz_ok d HF _ _ _ _ F1 I1 H) as (RW & B0 & A0 & LE & LT & _).
  apply RunWidth_run in RW; auto.
  assert (C2 : Chain fonts None (run_of (X' ++ y :: Y') y) (b + a)).
  { apply (chain_join fonts _ _ (run_join _ _ _ _ LL S)) with (p := None); cbn; auto.
    - now apply run_of_fields.
    - intros s I. apply HT. apply filter_In in I. tauto. }
  destruct (horiz_eval d HF _ y (b + a) F2 I2) as (b2 & a2 & H2 & E2); [now apply RunWidth_run|auto|].
  assert (RE : rwidth (s_rect y) = rwidth (s_rect x)) by (destruct S as [n E]; unfold s_rect; rewrite E; reflexivity).
  rewrite RE in H2. replace (b + a <=? rwidth (s_rect x)) with true in H2 by lia.
  destruct (horiz_before d HF _ _ _ F1 N1 _ _ H) as (pre & post & R1 & B1).
  destruct (horiz_before d HF _ _ _ F2 N2 _ _ H2) as (pre' & post' & R2 & B2).
  apply before_run in R1; auto. apply before_run in R2; auto. subst pre pre'.
  apply Before_chain in B1 as (u & U1 & G1). apply Before_chain in B2 as (u' & U2 & G2).
  assert (LP : LJ (run_of X x) (run_of X' y)) by now apply run_join.
  assert (u' = u) as ->.
  { eapply Chain_fun; [exact U2|]. apply (chain_join fonts _ _ LP) with (p := None); cbn; auto.
    - apply run_of_fields. now apply Forall_app in F1.
    - intros s I. apply HT. apply in_or_app. left. apply filter_In in I. tauto. }
  assert (b2 = b) as ->.
  { pose proof (LJ_last _ _ LP) as O. destruct (rev (run_of X x)) as [|p r], (rev (run_of X' y)) as [|p' r']; cbn in O; try contradiction.
    - congruence.
    - destruct G1 as (g & G1 & ->), G2 as (g' & G2 & ->).
      assert (g' = g) as ->; [|reflexivity]. eapply Gap_fun; [exact G2|]. eapply st_gap; eauto. }
  rewrite H2. do 2 f_equal. f_equal. lia.
Qed.

Lemma x_join X x Y X' y Y' v :
  Forall span_fields (X ++ x :: Y) -> Forall span_fields (X' ++ y :: Y') ->
  Numbered (X ++ x :: Y) -> Numbered (X' ++ y :: Y') ->
  (forall s, In s (X ++ x :: Y) -> Thick fonts s) ->
  StSame x y -> LJ X X' -> LJ (X ++ x :: Y) (X' ++ y :: Y') ->
  span_x Debug d (X ++ x :: Y) x = Val (Ok v) -> span_x Debug d (X' ++ y :: Y') y = Val (Ok v).
Proof.
  intros F1 F2 N1 N2 HT S LX LL H.
  destruct (span_x_horiz d _ _ _ H) as (q & HO & HE & _).
  destruct q as [[b a]|e]; [|destruct (HE e) as [_ K]; specialize (K eq_refl); discriminate K].
  pose proof (horiz_join X x Y X' y Y' b a F1 F2 N1 N2 HT S LX LL HO) as HO'.
  rewrite <- H. destruct S as [n E]. unfold span_x, span_x_left, span_x_center, span_x_right. rewrite HO, HO', E. reflexivity.
Qed.

(** ** Lines *)

Definition counted (dn : list Span) (ls : list TextLine) : Prop :=
  forall s, In s dn -> 0 <= s_line s < Z.of_nat (List.length ls).

Lemma combine_twice ls n l : combine_at (combine_at ls n l) n l = combine_at ls n l.
Proof.
  revert n. induction ls as [|x ls IH]; intros [|n]; cbn; auto.
  - f_equal. unfold combine. cbn. f_equal; try lia. destruct (tl_line_spacing x); auto. now destruct (tl_line_spacing l).
  - now rewrite IH.
Qed.

Lemma combine_last ls l : combine_at (ls ++ [l]) (List.length ls) l = ls ++ [l].
Proof.
  induction ls as [|x ls IH]; cbn.
  - f_equal. unfold combine. destruct l as [a b [c|]]; cbn; f_equal; lia.
  - now rewrite IH.
Qed.

Lemma collect_one s r ls h fs : span_height s fonts = Ok h -> span_font_spacing s fonts = Ok fs ->
  collect_lines fonts (s :: r) ls =
  collect_lines fonts r (if Z.of_nat (List.length ls) <=? s_line s then ls ++ [as_line s h fs]
                         else combine_at ls (Z.to_nat (s_line s)) (as_line s h fs)).
Proof.
  intros H1 H2. cbn [collect_lines]. rewrite H1, H2. unfold s_line, as_line. now destruct (_ <=? _).
Qed.

Lemma collect_join l m : LJ l m -> forall dn ls out, BlockStacked (dn ++ l) -> counted dn ls ->
  collect_lines fonts l ls = Ok out -> collect_lines fonts m ls = Ok out.
Proof.
  assert (HC1 : forall dn s l ls h fs, BlockStacked (dn ++ s :: l) -> counted dn ls ->
    counted (dn ++ [s]) (if Z.of_nat (List.length ls) <=? s_line s then ls ++ [as_line s h fs]
                         else combine_at ls (Z.to_nat (s_line s)) (as_line s h fs))).
  { intros dn s l' ls h fs HB HD. destruct (HB dn s l' eq_refl) as [P Q].
    assert (LE : s_line s <= Z.of_nat (List.length ls)).
    { destruct Q as [Q|(t & I & Q)]; [lia|]. specialize (HD t I). lia. }
    intros t I. destruct (Z.leb_spec (Z.of_nat (List.length ls)) (s_line s)) as [G|G];
      rewrite ?app_length, ?combine_at_length; cbn [List.length];
      (apply in_app_or in I as [I|[<-|[]]]; [specialize (HD t I)|]); lia. }
  induction 1 as [|x y l m S L IH|st t u k n l m NT NU L IH]; intros dn ls out HB HD H; auto.
  - apply collect_step in H as (h & fs & HH & HL & H).
    destruct (Same_state _ _ S) as [n E].
    rewrite (collect_one y m ls h fs).
    + replace (s_line y) with (s_line x) by (unfold s_line; rewrite E; reflexivity).
      replace (as_line y h fs) with (as_line x h fs) by (unfold as_line, span_line_spacing; rewrite E; reflexivity).
      apply (IH (dn ++ [x])); auto; [now rewrite <- app_assoc|]. eapply HC1; eauto.
    + apply span_height_iff in HH. rewrite <- HH. unfold span_height. rewrite E. reflexivity.
    + apply span_lead_iff in HL. rewrite <- HL. unfold span_font_spacing. rewrite E. reflexivity.
  - pose proof (HB dn (SpText st t) _ eq_refl) as [P Q].
    assert (LE : s_line (SpText st t) <= Z.of_nat (List.length ls)).
    { destruct Q as [Q|(z & I & Q)]; [lia|]. specialize (HD z I). lia. }
    apply collect_step in H as (h & fs & HH & HL & H). apply collect_step in H as (h' & fs' & HH' & HL' & H).
    assert (h' = h) as -> by now apply (HeightOf_fun fonts (SpText st t)).
    assert (fs' = fs) as -> by now apply (LeadOf_fun fonts (SpText st t)).
    rewrite (collect_one (SpText (set_span st n) (t ++ u)) m ls h fs) by (apply span_height_iff || apply span_lead_iff; assumption).
    change (as_line (SpText (set_span st k) u) h fs) with (as_line (SpText st t) h fs) in H.
    change (s_line (SpText (set_span st k) u)) with (s_line (SpText st t)) in H.
    change (as_line (SpText (set_span st n) (t ++ u)) h fs) with (as_line (SpText st t) h fs).
    change (s_line (SpText (set_span st n) (t ++ u))) with (s_line (SpText st t)).
    pose proof (HC1 dn (SpText st t) _ ls h fs HB HD) as HD1.
    assert (HB1 : BlockStacked ((dn ++ [SpText st t]) ++ SpText (set_span st k) u :: l)) by now rewrite <- app_assoc.
    pose proof (HC1 _ (SpText (set_span st k) u) _ _ h fs HB1 HD1) as HD2.
    change (as_line (SpText (set_span st k) u) h fs) with (as_line (SpText st t) h fs) in HD2.
    change (s_line (SpText (set_span st k) u)) with (s_line (SpText st t)) in HD2.
    apply (IH ((dn ++ [SpText st t]) ++ [SpText (set_span st k) u])); [now rewrite <- !app_assoc| |].
    + clear H. set (s := s_line (SpText st t)) in *. set (ln := as_line (SpText st t) h fs) in *.
      destruct (Z.leb_spec (Z.of_nat (List.length ls)) s) as [G|G].
      * assert (s = Z.of_nat (List.length ls)) as ES by lia. rewrite app_length in HD2. cbn [List.length] in HD2.
        replace (Z.of_nat (List.length ls + 1) <=? s) with false in HD2 by lia.
        rewrite ES, Nat2Z.id, combine_last in HD2. exact HD2.
      * rewrite combine_at_length in HD2. replace (Z.of_nat (List.length ls) <=? s) with false in HD2 by lia.
        rewrite combine_twice in HD2. exact HD2.
    + set (s := s_line (SpText st t)) in *. set (ln := as_line (SpText st t) h fs) in *.
      destruct (Z.leb_spec (Z.of_nat (List.length ls)) s) as [G|G].
      * assert (s = Z.of_nat (List.length ls)) as ES by lia. rewrite app_length in H. cbn [List.length] in H.
        replace (Z.of_nat (List.length ls + 1) <=? s) with false in H by lia.
        rewrite ES, Nat2Z.id, combine_last in H. exact H.
      * rewrite combine_at_length in H. replace (Z.of_nat (List.length ls) <=? s) with false in H by lia.
        rewrite combine_twice in H. exact H.
Qed.

Lemma vert_join l m x y q : Stacked l -> LJ l m -> StSame x y ->
  offset_vert Debug d l x = Val (Ok q) -> offset_vert Debug d m y = Val (Ok q).
Proof.
  intros HS L [n E] H. unfold offset_vert in *. rewrite E. cbv zeta in *.
  change (matches_line (set_span (span_state x) n)) with (matches_line (span_state x)).
  change (rs_line (set_span (span_state x) n)) with (rs_line (span_state x)).
  change (rs_rect (set_span (span_state x) n)) with (rs_rect (span_state x)).
  destruct (collect_lines fonts (filter (fun s => matches_line (span_state x) (span_state s)) l) []) as [ls|e] eqn:EC; [|discriminate H].
  pose proof (collect_join _ _ (LJ_filter (matches_line (span_state x)) (fun _ _ => eq_refl) _ _ L) [] [] ls) as K.
  rewrite K; auto.
  - exact (block_stacked l x HS).
  - intros s [].
Qed.

Lemma y_join l m x y v : Stacked l -> LJ l m -> StSame x y ->
  span_y Debug d l x = Val (Ok v) -> span_y Debug d m y = Val (Ok v).
Proof.
  intros HS L S H. pose proof H as H0. unfold span_y in H0.
  destruct (baseline Debug d l x) as [r| |] eqn:EB; try discriminate H0.
  destruct (baseline_vert d _ _ _ EB) as (q & HO & HE & _).
  destruct q as [q|e].
  2:{ destruct (HE e) as [_ K]. specialize (K eq_refl). subst r. discriminate H0. }
  pose proof (vert_join l m x y q HS L S HO) as HO'. destruct S as [n E].
  rewrite <- H. unfold span_y, baseline, baseline_top, baseline_middle, baseline_bottom, span_height.
  rewrite HO, HO', E. reflexivity.
Qed.
End Draw.

(** ** Drawing *)

Section Letters.
Variables (f : Font) (y sp : Z) (cf : rgb).

Lemma chk_i32_debug a b : chk_i32 Debug a = Val b -> b = a /\ -2147483648 <= a < 2147483648.
Proof.
  unfold chk_i32. destruct (Z.leb_spec (-2147483648) a), (Z.ltb_spec a 2147483648); cbn; intros E; try discriminate E;
    injection E as <-; lia.
Qed.

Lemma letters_app x t cs : Spells f t cs -> forall u page xx m,
  render_text_loop Debug f page t x y sp cf xx = Val (Ok m) ->
  render_text_loop Debug f page (t ++ u) x y sp cf xx = render_text_loop Debug f m u x y sp cf (end_of sp cs xx).
Proof.
  induction 1 as [|ch c t cs Hc S IH]; intros u page xx m H.
  - cbn in *. injection H as <-. reflexivity.
  - cbn [app render_text_loop] in *. pose proof (proj2 (character_spec f ch c) Hc) as C. rewrite C in *.
    apply bind_val in H as (a & Ea & H). rewrite Ea. cbn [bind].
    apply bind_val in H as (px & Ep & H). rewrite Ep. cbn [bind].
    apply bind_val in H as (pg & Eg & H). rewrite Eg. cbn [bind].
    apply bind_val in H as (b & Eb & H). rewrite Eb. cbn [bind].
    rewrite (IH u _ _ _ H). f_equal. unfold end_of. cbn [map fold_left]. f_equal.
    apply chk_i32_debug in Eb as [-> _]. unfold add_width.
    destruct (0 <? xx); [apply chk_i32_debug in Ea as [-> _]|injection Ea as ->]; lia.
Qed.

Lemma letters_shift x k u ds : Spells f u ds -> Forall (fun w => 1 <= w) (map c_width ds) -> 0 <= x -> 0 <= k -> 0 <= sp ->
  forall page xx q, 0 < xx -> k + end_of sp ds xx < 2147483648 ->
  render_text_loop Debug f page u (x + k) y sp cf xx = Val (Ok q) ->
  render_text_loop Debug f page u x y sp cf (k + xx) = Val (Ok q).
Proof.
  intros S W Hx Hk Hs. revert W. induction S as [|ch c u ds Hc S IH]; intros W page xx q P B H.
  - exact H.
  - inversion W as [|? ? W1 W2]; subst.
    cbn [render_text_loop] in *. pose proof (proj2 (character_spec f ch c) Hc) as C. rewrite C in *.
    unfold end_of in *. cbn [map fold_left] in B.
    assert (Q : add_width sp xx (c_width c) <= fold_left (add_width sp) (map c_width ds) (add_width sp xx (c_width c))).
    { apply acc_mono; auto. eapply Forall_impl; [|exact W2]. intros; cbn in *; lia. }
    unfold add_width at 1 in Q. replace (0 <? xx) with true in * by lia. replace (0 <? k + xx) with true by lia.
    apply bind_val in H as (a & Ea & H). apply chk_i32_debug in Ea as [-> Ra].
    apply bind_val in H as (px & Ep & H). apply chk_i32_debug in Ep as [-> Rp].
    apply bind_val in H as (pg & Eg & H).
    apply bind_val in H as (b & Eb & H). apply chk_i32_debug in Eb as [-> Rb].
    assert (AE : add_width sp xx (c_width c) = xx + sp + c_width c) by (unfold add_width; replace (0 <? xx) with true by lia; lia).
    rewrite AE in *.
    rewrite chk_i32_in by lia. cbn [bind]. rewrite chk_i32_in by lia. cbn [bind].
    replace (x + (k + xx + sp)) with (x + k + (xx + sp)) by lia. rewrite Eg. cbn [bind].
    rewrite chk_i32_in by lia. cbn [bind].
    replace (k + xx + sp + c_width c) with (k + (xx + sp + c_width c)) by lia. apply IH; auto. lia.
Qed.

Lemma end_sum sp' cs ds : end_of sp' (cs ++ ds) 0 = end_of sp' ds (end_of sp' cs 0).
Proof. unfold end_of. now rewrite map_app, fold_left_app. Qed.

Lemma end_shift a ds : Forall (fun w => 1 <= w) (map c_width ds) -> 0 <= a -> 0 <= sp -> forall n, 0 < n ->
  end_of sp ds (a + n) = a + end_of sp ds n.
Proof.
  intros W Ha Hs. unfold end_of. induction W as [|w ws Hw W IH]; intros n Hn; cbn [fold_left]; [reflexivity|].
  unfold add_width at 2 4. replace (0 <? a + n) with true by lia. replace (0 <? n) with true by lia.
  replace (a + n + sp + w) with (a + (n + sp + w)) by lia. apply IH. lia.
Qed.

(** A text drawn in two parts. *)
Lemma letters_join x t u cs ds page m q : Spells f t cs -> Spells f u ds -> t <> [] ->
  Forall (fun w => 1 <= w) (map c_width cs) -> Forall (fun w => 1 <= w) (map c_width ds) ->
  0 <= x -> 0 <= sp -> x + line_width sp (map c_width (cs ++ ds)) < 2147483648 ->
  font_render_text Debug f page t x y sp cf = Val (Ok m) ->
  font_render_text Debug f m u (x + line_width sp (map c_width cs) + sp) y sp cf = Val (Ok q) ->
  font_render_text Debug f page (t ++ u) x y sp cf = Val (Ok q).
Proof.
  intros S1 S2 NT W1 W2 Hx Hs B H1 H2. unfold font_render_text in *.
  rewrite (letters_app x t cs S1 u page 0 m H1).
  assert (G : forall ws, Forall (fun w => 1 <= w) ws -> Forall (fun w => 0 <= w) ws)
    by (intros ws; apply Forall_impl; intros; lia).
  assert (EB : end_of sp (cs ++ ds) 0 = line_width sp (map c_width (cs ++ ds))).
  { unfold end_of. apply line_width_fold; auto. apply G. rewrite map_app. now apply Forall_app. }
  assert (EC : end_of sp cs 0 = line_width sp (map c_width cs)) by (unfold end_of; apply line_width_fold; auto).
  assert (P : 0 < end_of sp cs 0).
  { destruct S1 as [|ch c t cs Hc S1]; [congruence|]. inversion W1; subst. unfold end_of. cbn [map fold_left].
    unfold add_width at 2. cbn [Z.ltb Z.compare]. pose proof (acc_mono sp (map c_width cs) (0 + c_width c) ltac:(lia)) as A.
    specialize (A ltac:(auto)). lia. }
  rewrite end_sum in EB. rewrite <- EC in H2. set (k := end_of sp cs 0) in *.
  destruct S2 as [|ch c u ds Hc S2]; [exact H2|].
  inversion W2 as [|? ? W3 W4]; subst.
  cbn [render_text_loop] in *. pose proof (proj2 (character_spec f ch c) Hc) as C. rewrite C in *.
  replace (0 <? k) with true by lia. cbn [Z.ltb Z.compare bind] in H2.
  assert (EA : end_of sp (c :: ds) k = end_of sp ds (k + sp + c_width c)).
  { unfold end_of. cbn [map fold_left]. f_equal. unfold add_width. replace (0 <? k) with true by lia. lia. }
  assert (Q : forall n, 0 <= n -> n <= end_of sp ds n) by (intros n Hn; unfold end_of; apply acc_mono; auto).
  pose proof (Q (k + sp + c_width c) ltac:(lia)).
  apply bind_val in H2 as (px & Ep & H2). apply chk_i32_debug in Ep as [-> Rp].
  apply bind_val in H2 as (pg & Eg & H2).
  apply bind_val in H2 as (b & Eb & H2). apply chk_i32_debug in Eb as [-> Rb].
  rewrite !chk_i32_in by lia. cbn [bind]. rewrite !chk_i32_in by lia. cbn [bind].
  replace (x + (k + sp)) with (x + k + sp + 0) by lia. rewrite Eg. cbn [bind].
  apply (letters_shift x (k + sp) u ds); auto; try lia.
  - rewrite <- end_shift by (auto; lia). cbn [Z.add]. lia.
  - replace (x + (k + sp)) with (x + k + sp) by lia. exact H2.
Qed.
End Letters.

Section Lines.
Variable d : Dms.
Hypothesis HF : table_fields (d_fonts d).
Hypothesis HV : valid_fonts (d_fonts d).
Hypothesis HC : vms_fields (d_vms_cfg d).
Local Notation fonts := (d_fonts d).
Local Notation cw := (char_width_pixels (d_vms_cfg d)).

(** Glyphs are whole cells. *)
Definition Whole (s : Span) : Prop :=
  1 < cw -> forall f, FontOf fonts s f ->
    on_boundary cw (spacing_in s f) /\ forall c, In c (f_characters f) -> used c -> on_boundary cw (c_width c).

Lemma spread_boundary c sp ws : on_boundary c sp -> Forall (on_boundary c) ws -> on_boundary c (spread sp ws).
Proof.
  intros B. induction 1 as [|w ws Hw H IH]; [right; exists 0; reflexivity|]. destruct ws as [|v ws]; [exact Hw|].
  change (spread sp (w :: v :: ws)) with (w + sp + spread sp (v :: ws)). auto using boundary_add.
Qed.

Lemma whole_width s w : span_fields s -> Whole s -> Thick fonts s -> 1 < cw -> SpanWidth fonts s w -> on_boundary cw w.
Proof.
  intros (_ & _ & _ & _ & t' & HT' & N) HW HT L (f & cs & (HFo & t & HT1 & S) & ->).
  assert (t' = t) as -> by (apply ShowsText_str in HT', HT1; congruence).
  destruct (HW L f HFo) as [B1 B2]. unfold line_width.
  rewrite drop_thick by now apply (spells_thick fonts s f t).
  apply spread_boundary; auto. apply Forall_forall. intros v I. apply in_map_iff in I as (c & <- & I).
  apply B2; [now apply (Spells_In f t cs)|]. now apply (spells_used f t cs).
Qed.

(** The second of two spans of one run. *)
Lemma second_x a st t u k c x1 x2 w f : let all := a ++ SpText st t :: SpText (set_span st k) u :: c in
  Forall span_fields all -> Numbered all -> rect_fits (rs_rect st) ->
  Thick fonts (SpText st t) -> Whole (SpText st t) ->
  span_x Debug d all (SpText st t) = Val (Ok x1) -> span_x Debug d all (SpText (set_span st k) u) = Val (Ok x2) ->
  SpanWidth fonts (SpText st t) w -> FontOf fonts (SpText st t) f ->
  x2 = x1 + w + spacing_in (SpText st t) f.
Proof.
  intros all HS HN HR HT HW X1 X2 W Fo. set (s1 := SpText st t) in *. set (s2 := SpText (set_span st k) u) in *.
  pose proof HC as (_ & Uc & _). unfold u8 in Uc.
  assert (all2 : all = (a ++ [s1]) ++ s2 :: c) by (unfold all; now rewrite <- app_assoc).
  pose proof (placed_x d HF HC a s1 (s2 :: c) x1 HS HN HR X1) as (pre & post & b & tot & P1 & B1 & T1 & L1 & Y1).
  assert (HS2 : Forall span_fields ((a ++ [s1]) ++ s2 :: c)) by now rewrite <- all2.
  assert (HN2 : Numbered ((a ++ [s1]) ++ s2 :: c)) by now rewrite <- all2.
  rewrite all2 in X2.
  pose proof (placed_x d HF HC (a ++ [s1]) s2 c x2 HS2 HN2 HR X2) as (pre' & post' & b' & tot' & P2 & B2 & T2 & L2 & Y2).
  pose proof (proj1 (run_of_picked _ _ _) P1) as R1. pose proof (proj1 (run_of_picked _ _ _) P2) as R2.
  symmetry in R1, R2.
  assert (ER : run_of ((a ++ [s1]) ++ s2 :: c) s2 = run_of (a ++ s1 :: s2 :: c) s1).
  { rewrite <- all2. apply run_of_st. exists k. reflexivity. }
  assert (ET : tot' = tot).
  { rewrite <- R2, ER, R1 in T2. destruct (pre ++ s1 :: post) eqn:E; [destruct pre; discriminate E|].
    apply RunWidth_chain in T1, T2. eapply Chain_fun; eauto. }
  subst tot'.
  apply before_run in R1; auto. apply before_run in R2; auto.
  assert (EP : pre' = pre ++ [s1]).
  { subst pre pre'. unfold run_of. rewrite filter_app. f_equal.
    cbn [filter]. replace (matches_span (span_state s2) (span_state s1)) with true; auto.
    symmetry. apply matches_span_iff. unfold SameRun. auto. }
  subst pre'. rewrite EP in *.
  destruct (run_offsets d HF pre s1 [] s2 b b' w) as (g & -> & G0 & G1 & G2); auto.
  { rewrite R1. apply Forall_app. split; [apply run_of_fields; now apply Forall_app in HS|].
    apply Forall_app in HS as [_ HS]. inversion HS as [|? ? S1 HS']; subst. inversion HS' as [|? ? S2 _]; subst.
    cbn. auto. }
  specialize (G1 eq_refl).
  assert (g = spacing_in s1 f) as -> by (eapply Gap_fun; [exact G1|now apply join_gap]).
  change (s_jl s2) with (s_jl s1) in Y2. change (s_rect s2) with (s_rect s1) in Y2.
  destruct (s_jl s1) eqn:Ej; cbn [place_x] in Y1, Y2; try contradiction; try lia.
  destruct (Z_le_gt_dec cw 1) as [LC|LC].
  - unfold cell in *. destruct (Z.leb_spec cw 1); lia.
  - assert (BD : on_boundary cw (w + spacing_in s1 f)).
    { apply boundary_add.
      - apply (whole_width s1); auto; try lia. rewrite Forall_forall in HS. apply HS. apply in_elt.
      - apply (HW ltac:(lia) f Fo). }
    rewrite Y2, Y1. replace (rx (s_rect s1) - 1 + (rwidth (s_rect s1) - tot) / 2 + (b + w + spacing_in s1 f))
      with (rx (s_rect s1) - 1 + (rwidth (s_rect s1) - tot) / 2 + b + (w + spacing_in s1 f)) by lia.
    rewrite cell_shift; auto; lia.
Qed.

Lemma same_draw x y p f a b : Same x y -> span_render_text Debug y p f a b = span_render_text Debug x p f a b.
Proof. intros [st t n|st t n]; reflexivity. Qed.

Lemma loop_join l m : LJ l m -> forall X X' p q, LJ X X' ->
  Forall span_fields (X ++ l) -> Forall span_fields (X' ++ m) ->
  Numbered (X ++ l) -> Numbered (X' ++ m) -> Stacked (X ++ l) ->
  (forall s, In s (X ++ l) -> Thick fonts s /\ Whole s /\ rect_fits (s_rect s)) ->
  render_spans_loop Debug d (X ++ l) l p = Val (Ok q) ->
  render_spans_loop Debug d (X' ++ m) m p = Val (Ok q).
Proof.
  induction 1 as [|x y l m S L IH|st t u k n l m NT NU L IH]; intros X X' p q LX F1 F2 N1 N2 K HA H; auto.
  - cbn [render_spans_loop] in *.
    apply try_ok in H as (xx & Ex & H). apply try_ok in H as (yy & Ey & H).
    assert (LL : LJ (X ++ x :: l) (X' ++ y :: m)) by (apply LJ_app; auto; now constructor).
    rewrite (x_join d HF X x l X' y m xx); auto using Same_state; [|intros s I; now apply HA].
    rewrite (y_join d _ _ x y yy K LL (Same_state _ _ S) Ey). cbn [try].
    replace (rs_get_font (span_state y) fonts) with (rs_get_font (span_state x) fonts)
      by (destruct (Same_state _ _ S) as [n ->]; reflexivity).
    destruct (rs_get_font (span_state x) fonts) as [f|e]; [|discriminate H]. cbn [try] in *.
    rewrite (same_draw x y) by auto.
    apply try_ok in H as (m1 & Em & H). rewrite Em. cbn [try].
    specialize (IH (X ++ [x]) (X' ++ [y]) m1 q). rewrite <- !app_assoc in IH. cbn [app] in IH.
    apply IH; auto. apply LJ_app; auto. repeat constructor. exact S.
  - set (s1 := SpText st t) in *. set (s2 := SpText (set_span st k) u) in *. set (y := SpText (set_span st n) (t ++ u)) in *.
    assert (LL : LJ (X ++ s1 :: s2 :: l) (X' ++ y :: m)) by (apply LJ_app; auto; now constructor).
    assert (SS : StSame s1 y) by (exists n; reflexivity).
    cbn [render_spans_loop] in H.
    apply try_ok in H as (x1 & Ex1 & H). apply try_ok in H as (y1 & Ey1 & H).
    apply try_ok in H as (f & Ef & H). injection Ef as Ef.
    apply try_ok in H as (p1 & Ep1 & H).
    apply try_ok in H as (x2 & Ex2 & H). apply try_ok in H as (y2 & Ey2 & H).
    apply try_ok in H as (f2 & Ef2 & H). injection Ef2 as Ef2.
    apply try_ok in H as (p2 & Ep2 & H).
    assert (f2 = f) as -> by (unfold s2 in Ef2; cbn [span_state] in Ef2; change (rs_get_font (set_span st k) fonts) with (rs_get_font st fonts) in Ef2; cbn in Ef; congruence).
    assert (Fo : FontOf fonts s1 f) by now apply get_font_iff.
    destruct (HA s1 (in_elt _ _ _)) as (HT & HW & HR).
    assert (I1 : In s1 (X ++ s1 :: s2 :: l)) by apply in_elt.
    assert (I2 : In s2 (X ++ s1 :: s2 :: l)) by (apply in_or_app; right; right; now left).
    assert (Iy : In y (X' ++ y :: m)) by apply in_elt.
    pose proof (x_join d HF X s1 (s2 :: l) X' y m x1 F1 F2 N1 N2 (fun s I => proj1 (HA s I)) SS LX LL Ex1) as Exy.
    pose proof (y_join d _ _ s1 y y1 K LL SS Ey1) as Eyy.
    assert (y2 = y1) as ->.
    { pose proof (y_join d _ _ s1 s2 y1 K (LJ_refl _) ltac:(exists k; reflexivity) Ey1) as E. congruence. }
    destruct (span_x_ok d HF HC _ s1 x1 F1 I1 HR Ex1) as (w1 & W1 & X0 & _).
    destruct (span_x_ok d HF HC _ s2 x2 F1 I2 HR Ex2) as (w2 & W2 & _).
    pose proof (second_x X st t u k l x1 x2 w1 f F1 N1 HR HT HW Ex1 Ex2 W1 Fo) as E2.
    destruct (span_x_ok d HF HC _ y x1 F2 Iy HR Exy) as (w & W & _ & BW & _).
    rewrite Forall_forall in F1. pose proof (clean_text st t (F1 s1 I1)) as Z1.
    pose proof (clean_text (set_span st k) u (F1 s2 I2)) as Z2.
    destruct W1 as (f1 & cs & (Fa & t' & S1 & P1) & Ew1). inversion S1; subst t'.
    destruct W2 as (f2 & ds & (Fb & u' & S2 & P2) & Ew2). inversion S2; subst u'.
    assert (f1 = f) as -> by now apply (FontOf_fun fonts s1).
    assert (f2 = f) as -> by now apply (FontOf_fun fonts s1).
    pose proof (spells_thick fonts s1 f t cs HT Fo Z1 P1) as T1.
    pose proof (spells_thick fonts s1 f u ds HT Fo Z2 P2) as T2.
    assert (w = line_width (spacing_in s1 f) (map c_width (cs ++ ds))) as ->.
    { eapply SpanWidth_fun; [exact W|]. exists f, (cs ++ ds). split; [|reflexivity].
      split; [exact Fo|]. exists (t ++ u). split; [constructor|now apply spells_app]. }
    cbn [render_spans_loop]. rewrite Exy. cbn [try]. rewrite Eyy. cbn [try].
    change (rs_get_font (span_state y) fonts) with (rs_get_font st fonts). rewrite Ef. cbn [try].
    assert (Ep : span_render_text Debug y p f x1 y1 = Val (Ok p2)).
    { unfold span_render_text, y, s1, s2 in *. cbn [span_str span_state] in *.
      change (char_spacing_font (SpText (set_span st k) u) f) with (spacing_in (SpText st t) f) in Ep2.
      change (char_spacing_font (SpText st t) f) with (spacing_in (SpText st t) f) in Ep1.
      change (char_spacing_font (SpText (set_span st n) (t ++ u)) f) with (spacing_in (SpText st t) f).
      change (foreground_rgb (rs_ctx (set_span st k))) with (foreground_rgb (rs_ctx st)) in Ep2.
      change (foreground_rgb (rs_ctx (set_span st n))) with (foreground_rgb (rs_ctx st)).
      set (sp := spacing_in (SpText st t) f) in *.
      assert (U : u8 sp). { apply spacing_u8; [apply (F1 _ I1)|]. exact (FontOf_fields _ _ _ HF Fo). }
      unfold u8 in U.
      destruct (font_render_text Debug f p t x1 y1 sp (foreground_rgb (rs_ctx st))) as [[m1|e]| |] eqn:E1; try discriminate Ep1.
      cbn in Ep1. injection Ep1 as ->.
      destruct (font_render_text Debug f p1 u x2 y1 sp (foreground_rgb (rs_ctx st))) as [[m2|e]| |] eqn:E3; try discriminate Ep2.
      cbn in Ep2. injection Ep2 as ->.
      rewrite (letters_join f y1 sp (foreground_rgb (rs_ctx st)) x1 t u cs ds p p1 p2); auto; try lia.
      - destruct HR as (? & ? & ? & ? & ? & ?). unfold s_rect in *. cbn [span_state set_span rs_rect] in *. lia.
      - fold s1 in Ew1. rewrite E2, Ew1 in E3. exact E3. }
    rewrite Ep. cbn [try].
    specialize (IH (X ++ [s1; s2]) (X' ++ [y]) p2 q). rewrite <- !app_assoc in IH. cbn [app] in IH.
    apply IH; auto; [apply LJ_app; auto; now apply LJ_join; auto using LJ_nil|]. now apply Forall_forall.
Qed.

Lemma check_join l m : LJ l m -> forall jp jl n, check_just_loop l jp jl n = Ok tt -> check_just_loop m jp jl n = Ok tt.
Proof.
  induction 1 as [|x y l m S L IH|st t u k n l m NT NU L IH]; intros jp jl ln H; auto.
  - cbn [check_just_loop] in *. destruct (Same_state _ _ S) as [n ->]. cbn [rs_jp rs_jl rs_line set_span] in *.
    destruct (_ || _); [discriminate|]. auto.
  - cbn [check_just_loop] in *. cbn [span_state rs_jp rs_jl rs_line set_span] in *.
    destruct (_ || _); [discriminate|]. destruct (_ || _); [discriminate|]. auto.
Qed.

(** Joined texts are drawn as the texts they are made of. *)
Lemma render_join l m p q : LJ l m -> Forall span_fields l -> Forall span_fields m ->
  Numbered l -> Numbered m -> Stacked l ->
  (forall s, In s l -> Thick fonts s /\ Whole s /\ rect_fits (s_rect s)) ->
  render_text_spans Debug d l p = Val (Ok q) -> render_text_spans Debug d m p = Val (Ok q).
Proof.
  intros L F1 F2 N1 N2 K HA H. unfold render_text_spans, check_justification in *.
  destruct (check_just_loop l JpOther JlOther 0) as [[]|e] eqn:E; [|discriminate H].
  rewrite (check_join l m L _ _ _ E). cbn [try] in *.
  apply (loop_join l m L [] [] p q); auto. constructor.
Qed.
End Lines.
