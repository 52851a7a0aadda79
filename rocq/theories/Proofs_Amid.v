(** More proofs for C90: text put in front of text at the right. *)

From Coq Require Import ZifyBool ZifyNat Lia.
From Verif Require Import Base Str Multi Color Raster Font Graphic Config Sign Render
  Spec_Multi Spec_Color Spec_Font Spec_Graphic Spec_Sign Spec_Render Spec_Layout Spec_Draw Spec_Page Spec_Safe Spec_Fail Spec_Below Spec_Beside Spec_Apart Spec_Longer Spec_Within
  Proofs_Str Proofs_Norm Proofs_Font Proofs_Graphic Proofs_Sign Proofs_Render Proofs_Pages Proofs_Horiz Proofs_Vert Proofs_Layout
  Proofs_Place Proofs_Draw Proofs_Page Proofs_Orderly Proofs_Modes Proofs_Safe Proofs_Text Proofs_Fail Proofs_Verdict Proofs_First Proofs_Unique Proofs_Below Proofs_Beside Proofs_Longer Proofs_Above Proofs_Ahead Proofs_Within.
Open Scope list_scope.

(** ** The texts that come after *)

Section Texts.
Variables (d : Dms) (c : Place) (vs ws ys : list Value).
Notation past := (pl_earlier c ++ pl_upto c).
Hypothesis HW : Forall is_text ws.
Hypothesis HY : Forall adds_beside ys.
Hypothesis HE : exists r v, ys = r ++ [v] /\ is_text v.

Lemma amid_setting v0 r : ends_run v0 -> setting d c (vs ++ ws ++ ys ++ v0 :: r) = setting d c (vs ++ ys ++ v0 :: r).
Proof.
  intros H0. unfold setting.
  assert (EJ : jp_of d (past ++ vs ++ ws) = jp_of d (past ++ vs)).
  { pose proof (ahead_force vs ws HW (says_jp d) (default_justification_page (d_multi_cfg d)) past []) as E. rewrite !app_nil_r in E.
    apply E. intros v; destruct v; cbn; intros []; reflexivity. }
  assert (EW : line_at d (past ++ vs) (line_at d past 0 vs) ws = line_at d past 0 vs).
  { rewrite line_added by (apply beside_adds, is_beside; auto). rewrite beside_newlines by (apply is_beside; auto). lia. }
  unfold page_colors, fg_of, jp_of, jl_of, font_of.
  rewrite !(ahead_force vs ws HW _ _ past (ys ++ v0 :: r)) by (intros v; destruct v; cbn; intros []; reflexivity).
  rewrite !(ahead_force vs ws HW _ _ (pl_upto c) (ys ++ v0 :: r)) by (intros v; destruct v; cbn; intros []; reflexivity).
  f_equal.
  - rewrite !(line_app d vs), (line_app d ws), EW. apply line_past. now rewrite <- app_assoc.
  - rewrite !(text_app d vs), (text_app d ws), !(text_app d ys).
    destruct v0; try contradiction; cbn [text_at]; apply text_past.
    all: apply same_jp, same_jp; now rewrite <- app_assoc.
Qed.

Lemma ends_blank a y : blank_line (a ++ ys ++ y) = blank_line (ys ++ y).
Proof.
  destruct HE as (r & v & -> & V). unfold blank_line. rewrite <- app_assoc, (force_app _ a), !(force_app _ r). cbn [app in_force].
  destruct v; try contradiction; reflexivity.
Qed.

Lemma amid_blank y : blank_line (vs ++ ws ++ ys ++ y) = blank_line (vs ++ ys ++ y).
Proof. rewrite (app_assoc vs ws), !ends_blank. reflexivity. Qed.

Lemma amid_later v0 zs : ends_run v0 -> forall r, texts d c (vs ++ ws ++ ys ++ v0 :: r) zs = texts d c (vs ++ ys ++ v0 :: r) zs.
Proof.
  intros H0. induction zs as [|v zs IH]; intros r; cbn [texts]; [reflexivity|].
  rewrite amid_blank, amid_setting by auto.
  replace ((vs ++ ws ++ ys ++ v0 :: r) ++ [v]) with (vs ++ ws ++ ys ++ v0 :: r ++ [v]) by (rewrite <- !app_assoc; reflexivity).
  rewrite IH. rewrite <- !app_assoc. reflexivity.
Qed.

Lemma amid_texts v0 r : ends_run v0 -> texts d c (vs ++ ws ++ ys) (v0 :: r) = texts d c (vs ++ ys) (v0 :: r).
Proof.
  intros H0. cbn [texts]. pose proof (amid_blank []) as B. rewrite !app_nil_r in B. rewrite B.
  pose proof (ends_blank vs []) as B2. rewrite !app_nil_r in B2.
  assert (B3 : blank_line ys = false).
  { destruct HE as (r1 & v & -> & V). unfold blank_line. rewrite Proofs_Page.in_force_snoc. destruct v; try contradiction; reflexivity. }
  rewrite B2, B3, <- !app_assoc, (amid_later v0 r H0 []). destruct v0; try contradiction; reflexivity.
Qed.
End Texts.

Lemma beside_state d c ws : Forall adds_beside ws -> forall vs, AlikeState (setting d c vs) (setting d c (vs ++ ws)).
Proof.
  induction 1 as [|v ws V _ IH]; intros vs; [rewrite app_nil_r; unfold AlikeState; splits; reflexivity|].
  specialize (IH (vs ++ [v])). rewrite <- app_assoc in IH. exact (alike_trans _ _ _ (beside_step d c vs v V) IH).
Qed.

(** ** Lines with one part for another of its kind *)

Section Lines.
Variables (d : Dms) (m n : list Span).
Hypothesis HA : forall t u, In t m -> In u n -> Alike t u.
Hypothesis Em : m <> [].
Hypothesis En : n <> [].

Inductive Swap : list Span -> list Span -> Prop :=
| Swap_no l : Swap l l
| Swap_in g h : Swap (g ++ m ++ h) (g ++ n ++ h).

Lemma swap_snoc l l' s : Swap l l' -> Swap (l ++ [s]) (l' ++ [s]).
Proof. intros [k|g h]; [constructor|]. rewrite <- !app_assoc. constructor. Qed.

Lemma swap_greatest (R : Span -> Z -> Prop) l l' v : (forall t u w, Alike t u -> (R t w <-> R u w)) -> Swap l l' ->
  Greatest R l v -> Greatest R l' v.
Proof.
  intros H [k|g h]; auto. intros ((x & J & K) & L). destruct m as [|t m']; [congruence|]. destruct n as [|u n']; [congruence|]. split.
  - apply in_app_or in J as [J|J]; [exists x; split; [apply in_or_app; auto|exact K]|].
    apply in_app_or in J as [J|J]; [|exists x; split; [apply in_or_app; right; apply in_or_app; auto|exact K]].
    exists u. split; [apply in_elt|]. exact (proj1 (H x u v (HA x u J (or_introl eq_refl))) K).
  - intros y w Iy Y. apply in_app_or in Iy as [Iy|Iy]; [apply (L y w); auto; apply in_or_app; auto|].
    apply in_app_or in Iy as [Iy|Iy]; [|apply (L y w); auto; apply in_or_app; right; apply in_or_app; auto].
    apply (L t w); [apply in_elt|]. exact (proj2 (H t y w (HA t y (or_introl eq_refl) Iy)) Y).
Qed.

Lemma swap_asked l l' o : Swap l l' -> Asked l o -> Asked l' o.
Proof.
  intros [k|g h] A; auto. destruct m as [|t m']; [congruence|]. destruct n as [|u n']; [congruence|].
  assert (E : forall x y, In x (t :: m') -> In y (u :: n') -> rs_line_spacing (span_state y) = rs_line_spacing (span_state x)).
  { intros x y Ix Iy. apply (HA x y Ix Iy). }
  remember (g ++ (t :: m') ++ h) as l0 eqn:El. destruct A as [l0 N|l0 a x b z E' N X]; subst l0.
  - apply As_none. intros y I. apply in_app_or in I as [I|I]; [apply N, in_or_app; auto|].
    apply in_app_or in I as [I|I]; [|apply N, in_or_app; right; apply in_or_app; auto].
    rewrite (E t y (or_introl eq_refl) I). apply N, in_elt.
  - assert (C : forall p q r : list Span, p ++ q = r ++ x :: b -> (exists k, p = r ++ x :: k) \/ exists k, r = p ++ k /\ q = k ++ x :: b).
    { intros p q r E1. apply app_eq_app in E1 as (k & [[E1 E2]|[E1 E2]]).
      - destruct k as [|y k]; cbn [app] in E2; [right; exists []; rewrite !app_nil_r in *; auto|injection E2 as <- _; left; eauto].
      - right. exists k. auto. }
    destruct (C _ _ _ E') as [(k & ->)|(k & -> & E1)].
    + rewrite <- app_assoc. exact (As_some _ a x (k ++ (u :: n') ++ h) z eq_refl N X).
    + destruct (C _ _ _ E1) as [(k' & E2)|(k' & -> & ->)].
      * assert (Ix : In x (t :: m')) by (rewrite E2; apply in_elt).
        apply (As_some _ g u (n' ++ h) z eq_refl); [intros y Iy; apply N, in_or_app; auto|].
        rewrite (E x u Ix (or_introl eq_refl)). exact X.
      * apply (As_some _ (g ++ (u :: n') ++ k') x b z); [rewrite <- !app_assoc; reflexivity| |exact X].
        intros y J. apply in_app_or in J as [J|J]; [apply N, in_or_app; auto|].
        apply in_app_or in J as [J|J]; [|apply N, in_or_app; right; apply in_or_app; auto].
        rewrite (E t y (or_introl eq_refl) J). apply N, in_elt.
Qed.

Lemma swap_height l l' v : Swap l l' -> Greatest (HeightOf (d_fonts d)) l v -> Greatest (HeightOf (d_fonts d)) l' v.
Proof.
  apply swap_greatest. intros t u w A. split; intros (f & F & ->); exists f; (split; [apply (alike_font _ t u f A); exact F|reflexivity]).
Qed.
Lemma swap_lead l l' v : Swap l l' -> Greatest (LeadOf (d_fonts d)) l v -> Greatest (LeadOf (d_fonts d)) l' v.
Proof.
  apply swap_greatest. intros t u w A. split; intros (f & F & ->); exists f; (split; [apply (alike_font _ t u f A); exact F|reflexivity]).
Qed.

Lemma swap_stack ls v : StackHeight d ls v -> forall ls', Forall2 Swap ls ls' -> StackHeight d ls' v.
Proof.
  induction 1 as [|l h G|r p l v g h S IH G K]; intros ls' F.
  - inversion F. constructor.
  - inversion F as [|? l' ? ? P F']; subst. inversion F'; subst. apply Sk_one. exact (swap_height _ _ _ P G).
  - apply Forall2_app_inv_l in F as (r' & z & F1 & F2 & ->). inversion F2 as [|? p' ? z' P F3]; subst.
    inversion F3 as [|? l' ? ? L F4]; subst. inversion F4; subst.
    apply Sk_snoc; [apply IH, Forall2_app; auto| |exact (swap_height _ _ _ L K)].
    destruct G as [C|k C A|a b C A G1 G2]; [now apply Lg_cells|apply Lg_set; auto; exact (swap_asked _ _ _ L A)|].
    apply Lg_avg; auto; [exact (swap_asked _ _ _ L A)|exact (swap_lead _ _ _ P G1)|exact (swap_lead _ _ _ L G2)].
Qed.

Lemma swap_firstn k : forall ls ls', Forall2 Swap ls ls' -> Forall2 Swap (firstn k ls) (firstn k ls').
Proof. induction k as [|k IH]; intros ls ls' F; [constructor|]. destruct F; cbn [firstn]; constructor; auto. Qed.

Lemma swap_counted init g b : Counted (b ++ m) (init ++ [g ++ m]) -> Counted (b ++ n) (init ++ [g ++ n]) ->
  forall z, (forall t, In t z -> 0 <= s_line t) ->
  exists ls ls', Counted (b ++ m ++ z) ls /\ Counted (b ++ n ++ z) ls' /\ Forall2 Swap ls ls'.
Proof.
  intros Cm Cn. induction z as [|s z IH] using rev_ind; intros HM.
  - exists (init ++ [g ++ m]), (init ++ [g ++ n]). rewrite !app_nil_r. splits; auto.
    apply Forall2_app; [clear; induction init; constructor; auto; constructor|]. constructor; [|constructor].
    pose proof (Swap_in g []) as P. rewrite !app_nil_r in P. exact P.
  - destruct IH as (ls & ls' & C1 & C2 & F); [intros t It; apply HM, in_or_app; auto|].
    assert (H0 : 0 <= s_line s) by (apply HM, in_elt).
    pose proof (Forall2_len _ _ _ F) as LF. rewrite !app_assoc in *.
    destruct (Z_le_dec (Z.of_nat (List.length ls)) (s_line s)) as [K|K].
    + exists (ls ++ [[s]]), (ls' ++ [[s]]). splits; [apply Ct_new; auto|apply Ct_new; [auto|lia]|].
      apply Forall2_app; auto. constructor; constructor.
    + destruct (nth_error ls (Z.to_nat (s_line s))) as [x|] eqn:E; [|apply nth_error_None in E; lia].
      apply nth_error_split in E as (a & post & -> & La).
      apply Forall2_app_inv_l in F as (a' & y & F1 & F2 & ->). inversion F2 as [|? x' ? post' P F3]; subst.
      pose proof (Forall2_len _ _ _ F1) as La'.
      exists (a ++ (x ++ [s]) :: post), (a' ++ (x' ++ [s]) :: post').
      splits; [apply Ct_old; auto; lia|apply Ct_old; [auto|lia]|].
      apply Forall2_app; auto. constructor; auto. now apply swap_snoc.
Qed.
End Lines.

(** ** Places *)

Lemma at_x_amid d l m n z s x y : (forall t, In t m -> ~ SameRun s t) -> (forall t, In t n -> ~ SameRun s t) ->
  AtX d (l ++ m ++ z) s x -> AtX d (l ++ n ++ z) s y -> x = y.
Proof.
  intros Hm Hn (run & b & t & P & O & W & _ & X) (run' & b' & t' & P' & O' & W' & _ & X').
  apply Picked_app in P as (g1 & g2 & -> & P1 & P2), P' as (g1' & g2' & -> & P1' & P2').
  apply picked_after in P2; auto. apply picked_after in P2'; auto.
  rewrite (Picked_fun _ _ _ _ P1' P1), (Picked_fun _ _ _ _ P2' P2) in *.
  rewrite (RunOffset_fun d _ _ _ _ _ O' O), (RunWidth_fun _ _ _ _ W' W) in X'. exact (place_x_fun _ _ _ _ _ _ _ _ X X').
Qed.

Section Rows.
Variables (d : Dms) (l m n z : list Span) (j : JustificationPage) (i : Z).
Hypothesis HK : Stacked l.
Hypothesis HL : forall s, In s l -> s_jp s = j -> s_line s <= i.
Hypothesis HI : i = 0 \/ exists s, In s l /\ s_jp s = j /\ s_line s = i - 1.
Hypothesis HM : forall t, In t m -> s_jp t = j /\ s_line t = i.
Hypothesis HN : forall t, In t n -> s_jp t = j /\ s_line t = i.
Hypothesis HA : forall t u, In t m -> In u n -> Alike t u.
Hypothesis Em : m <> [].
Hypothesis En : n <> [].
Hypothesis HZ : forall t, In t z -> 0 <= s_line t.

Lemma amid_y s s' x y : s_jp s' = s_jp s -> s_line s' = s_line s -> s_rect s' = s_rect s ->
  (forall h, HeightOf (d_fonts d) s' h <-> HeightOf (d_fonts d) s h) ->
  AtY d (l ++ m ++ z) s x -> AtY d (l ++ n ++ z) s' y -> x = y.
Proof.
  intros E1 E2 E3 EH (bl & ls & a & t & b & h & P & C & SA & ST & _ & X & Hh & ->)
    (bl' & ls' & a' & t' & b' & h' & P' & C' & SA' & ST' & _ & X' & Hh' & ->).
  apply EH in Hh'. rewrite (HeightOf_fun _ _ _ _ Hh' Hh). rewrite E1, E3 in X'. rewrite E2 in SA'. f_equal.
  assert (EB : forall u, SameBlock s u <-> SameBlock s' u) by (intros u; unfold SameBlock; rewrite E1; reflexivity).
  apply (Picked_iff (SameBlock s)) in P'; auto.
  assert (Q : a' = a /\ t' = t); [|destruct Q as [-> ->]; exact (place_y_fun _ _ _ _ _ _ _ _ X X')].
  apply Picked_app in P as (g1 & g2 & -> & P1 & P2), P' as (g1' & g2' & -> & P1' & P2').
  apply Picked_app in P2 as (gm & g3 & -> & Pm & P3), P2' as (gn & g3' & -> & Pn & P3').
  rewrite (Picked_fun _ _ _ _ P1' P1), (Picked_fun _ _ _ _ P3' P3) in *.
  destruct (jp_dec (s_jp s) j) as [J|J].
  - assert (gm = m) as ->.
    { apply (Picked_fun _ _ _ _ Pm), picked_all. intros u Iu. unfold SameBlock. rewrite J. apply (HM u Iu). }
    assert (gn = n) as ->.
    { apply (Picked_fun _ _ _ _ Pn), picked_all. intros u Iu. unfold SameBlock. rewrite J. apply (HN u Iu). }
    destruct (like_counted l m n j i HK HL HI HM HN HA Em En s g1 J P1) as (init & g & Li & Cm & Cn).
    assert (QZ : forall u, In u g3 -> 0 <= s_line u) by (intros u Iu; apply (Picked_in _ _ _ _ P3) in Iu as [Iu _]; auto).
    edestruct swap_counted with (m := m) (n := n) (init := init) (g := g) (b := g1) (z := g3) as (x1 & x2 & Q1 & Q2 & F); eauto.
    rewrite (counted_fun _ _ C _ Q1), (counted_fun _ _ C' _ Q2) in *.
    split.
    + apply (StackHeight_fun d _ _ _ SA'). apply (swap_stack d m n HA Em En _ _ SA). now apply swap_firstn.
    + apply (StackHeight_fun d _ _ _ ST'). exact (swap_stack d m n HA Em En _ _ ST _ F).
  - assert (gm = []) as ->.
    { destruct gm as [|u gm]; auto. destruct (proj1 (Picked_in _ _ _ u Pm) (or_introl eq_refl)) as [Iu U].
      unfold SameBlock in U. destruct (HM u Iu). congruence. }
    assert (gn = []) as ->.
    { destruct gn as [|u gn]; auto. destruct (proj1 (Picked_in _ _ _ u Pn) (or_introl eq_refl)) as [Iu U].
      unfold SameBlock in U. destruct (HN u Iu). congruence. }
    cbn [app] in *. rewrite (counted_fun _ _ C' _ C) in *.
    split; [exact (StackHeight_fun d _ _ _ SA' SA)|exact (StackHeight_fun d _ _ _ ST' ST)].
Qed.
End Rows.

(** ** Pages *)

Lemma texts_amid d c vs ws ys v0 r0 r r' q q' : ends_run v0 -> Orderly d (pl_earlier c ++ pl_upto c) ((vs ++ ys) ++ v0 :: r0) ->
  jl_of d ((pl_earlier c ++ pl_upto c) ++ vs) = JlRight -> text_at d (pl_earlier c ++ pl_upto c) 0 vs = 0 ->
  Forall is_text ws -> (exists a v, ys = a ++ [v] /\ is_text v) -> Forall adds_beside ys ->
  SameImage r r' -> TextsShown d c (vs ++ ys ++ v0 :: r0) r q -> TextsShown d c (vs ++ ws ++ ys ++ v0 :: r0) r' q' ->
  Over (fun k => exists t, In t (texts d c vs ws) /\ k = foreground_rgb (rs_ctx (span_state t))) q q'.
Proof.
  intros H0 HO HJ HN HW HE HY S T T'.
  pose proof (is_beside ws HW) as HWb.
  assert (HWY : Forall adds_beside (ws ++ ys)) by (apply Forall_app; auto).
  pose proof (orderly_front d _ _ _ HO) as HO2. pose proof (orderly_front d _ _ _ HO2) as HO1.
  destruct (orderly d c _ HO) as [_ K2]. destruct (orderly d c _ HO2) as [N1 _].
  destruct (orderly d c _ (orderly_beside d _ vs (ws ++ ys) HO1 HWY)) as [N2 _].
  pose proof (orderly_inv d c vs HO1) as IV.
  assert (HV : exists a v, vs ++ ys = a ++ [v] /\ is_text v).
  { destruct HE as (a & v & -> & V). exists (vs ++ a), v. rewrite app_assoc. auto. }
  assert (AW : forall t, In t (texts d c (vs ++ ys) (v0 :: r0)) -> ~ RunHere d c (vs ++ ys) t).
  { apply (away_all d c (vs ++ ys) [] HV); auto; rewrite app_nil_r; reflexivity. }
  assert (HS : Forall span_fields (texts d c [] (vs ++ ys ++ v0 :: r0))) by (destruct T; auto).
  apply ts_at in T, T'. rewrite <- (app_assoc vs ys) in K2.
  assert (ET : texts d c [] (vs ++ ys ++ v0 :: r0) = texts d c [] vs ++ texts d c vs ys ++ texts d c (vs ++ ys) (v0 :: r0)).
  { rewrite !texts_app. reflexivity. }
  assert (ET' : texts d c [] (vs ++ ws ++ ys ++ v0 :: r0)
                = texts d c [] vs ++ texts d c vs ws ++ texts d c (vs ++ ws) ys ++ texts d c (vs ++ ys) (v0 :: r0)).
  { rewrite !texts_app. cbn [app]. rewrite <- app_assoc, (amid_texts d c vs ws ys HW HY HE v0 r0 H0). reflexivity. }
  rewrite ET in T, K2, HS. rewrite ET' in T'. rewrite texts_app in N1, N2. cbn [app] in N1, N2. rewrite texts_app in N2.
  set (k := Z.of_nat (List.length ws)) in *.
  pose proof (ahead_texts d c vs ws HW ys HY [] (Forall_nil _)) as EY. rewrite !app_nil_r in EY. fold k in EY.
  pose proof (beside_texts d c (ws ++ ys) HWY vs) as AN. rewrite texts_app in AN.
  rewrite EY in T', N2, AN.
  pose proof (beside_texts d c ys HY vs) as AM. pose proof (beside_state d c ys HY vs) as AV.
  set (l := texts d c [] vs) in *. set (m := texts d c vs ys) in *. set (w := texts d c vs ws) in *.
  set (z := texts d c (vs ++ ys) (v0 :: r0)) in *.
  set (st := setting d c vs) in *.
  apply Forall_app in HS as [HSl _]. rewrite Forall_forall in HSl.
  assert (Em : m <> []).
  { apply some_text. destruct HE as (a & v & -> & V). apply Exists_exists. exists v. split; [apply in_elt|exact V]. }
  assert (En : w ++ map (renumber k) m <> []) by (destruct w, m; try congruence; discriminate).
  assert (NR : forall s t, In s l -> AlikeState st (span_state t) -> ~ SameRun t s).
  { intros s t Is (A1 & A2 & A3 & _) (R1 & R2 & R3). unfold s_jp, s_line, s_jl in R1, R2, R3. rewrite A1 in R1. rewrite A3 in R2. rewrite A2 in R3.
    destruct (iv_same d c vs IV s Is R1) as (_ & _ & K). destruct (K R2) as [_ K3]. specialize (K3 R3).
    destruct (HSl s Is) as (_ & _ & _ & U & _). unfold u8 in U. rewrite HN in K3. lia. }
  assert (NZ : forall s t, In s z -> AlikeState st (span_state t) -> ~ SameRun t s).
  { intros s t Is (A1 & A2 & A3 & _) (R1 & R2 & R3). apply (AW s Is). unfold RunHere.
    destruct AV as (B1 & B2 & B3 & _). unfold s_jp, s_line, s_jl in *. 
    unfold st, setting in A1, A2, A3, B1, B2, B3. cbn [rs_jp rs_jl rs_line] in A1, A2, A3, B1, B2, B3.
    rewrite B1, B2, B3. splits; congruence. }
  assert (HZ : forall t, In t z -> 0 <= s_line t).
  { intros t It. apply in_split in It as (x & y & E). rewrite E, !app_assoc in K2. apply (K2 _ _ _ eq_refl). }
  assert (LY : forall s s' x y, s_jp s' = s_jp s -> s_line s' = s_line s -> s_rect s' = s_rect s ->
     (forall h, HeightOf (d_fonts d) s' h <-> HeightOf (d_fonts d) s h) ->
     AtY d (l ++ m ++ z) s x -> AtY d (l ++ w ++ map (renumber k) m ++ z) s' y -> x = y).
  { intros s s' x y. rewrite (app_assoc w). apply (amid_y d l m (w ++ map (renumber k) m) z (rs_jp st) (rs_line st)); auto.
    - exact (iv_stacked d c vs IV).
    - intros u Iu E. exact (proj1 (iv_same d c vs IV u Iu E)).
    - exact (iv_above d c vs IV).
    - intros t It. destruct (AM t It) as (A1 & _ & A3 & _). auto.
    - intros t It. destruct (AN t It) as (A1 & _ & A3 & _). auto.
    - intros t u It Iu. destruct (AM t It) as (A1 & A2 & A3 & A4 & A5 & A6 & A7), (AN u Iu) as (B1 & B2 & B3 & B4 & B5 & B6 & B7).
      unfold Alike, s_jp, s_line, s_rect. splits; congruence. }
  assert (LX : forall s x y, In s l \/ In s z -> AtX d (l ++ m ++ z) s x -> AtX d (l ++ w ++ map (renumber k) m ++ z) s y -> x = y).
  { intros s x y Is. rewrite (app_assoc w). apply at_x_amid; intros t It R; apply SameRun_sym in R.
    - destruct Is as [Is|Is]; [exact (NR s t Is (AM t It) R)|exact (NZ s t Is (AM t It) R)].
    - destruct Is as [Is|Is]; [exact (NR s t Is (AN t It) R)|exact (NZ s t Is (AN t It) R)]. }
  apply drawn_app in T as (p1 & D1 & T). apply drawn_app in T as (p2 & D2 & D3).
  apply drawn_app in T' as (p1' & D1' & T'). apply drawn_app in T' as (pw & Dw & T'). apply drawn_app in T' as (p2' & D2' & D3').
  assert (SI : SameImage p1 p1').
  { apply (drawn_places d (l ++ m ++ z) (l ++ w ++ map (renumber k) m ++ z) l r p1 D1) with (p' := r'); auto; intros s x y Is; [apply LX; auto|apply LY; auto; reflexivity]. }
  refine (over_drawn d (fun s => s) _ _ _ _ _ _ _ _ _ D3 _ _ p2' q' _ _); auto;
    [intros s x y Is; apply LX; auto|intros s x y Is; apply LY; auto; reflexivity| |rewrite map_id; exact D3'].
  refine (over_drawn d (renumber k) _ _ _ _ _ _ _ _ _ D2 _ _ pw p2' _ D2').
  - intros s f cs. apply rn_set.
  - intros s f; destruct s; reflexivity.
  - intros s; destruct s; reflexivity.
  - intros s x y Is X Y. pose proof (AM s Is) as As.
    assert (As' : AlikeState st (span_state (renumber k s))) by (apply AN, in_or_app; right; now apply in_map).
    rewrite app_assoc in X. apply at_x_drop in X; [|intros t It R; exact (NZ t s It As R)].
    rewrite !app_assoc in Y. apply at_x_drop in Y; [|intros t It R; exact (NZ t _ It As' R)]. rewrite <- app_assoc in Y.
    apply in_split in Is as (a & e & E). rewrite E in *.
    apply (ahead_x d k l w a s e x y); auto.
    + destruct As as (_ & A2 & _). unfold s_jl. rewrite A2. exact HJ.
    + intros t It. assert (At : AlikeState st (span_state t)) by (apply AM, in_or_app; right; now right).
      destruct As as (A1 & A2 & A3 & _), At as (B1 & B2 & B3 & _). unfold SameRun, s_jp, s_line, s_jl. splits; congruence.
  - intros s x y Is. destruct (rn_same k s) as (R1 & R2 & _ & R4). apply LY; auto. destruct s; reflexivity.
  - refine (over_added d _ _ _ _ _ _ Dw p1 SI). intros s I. eauto.
Qed.

Lemma longer_amid md d ms ms' pgs fr vs ws ys zs ps ps' : Built d -> (md = Release -> ~ Wraps d ms /\ ~ Wraps d ms') ->
  HasPage ms pgs (fr ++ vs ++ ys ++ zs) -> HasPage ms' pgs (fr ++ vs ++ ws ++ ys ++ zs) -> TextWithinRight d (List.concat pgs) fr vs ws ys zs ->
  Yields md d ms (map Ok ps) -> Yields md d ms' (map Ok ps') ->
  GrownAt (shown_for d [] pgs) (fun _ _ k => exists t, AddedColor d (List.concat pgs) fr vs ws t k) ps ps'.
Proof.
  intros HB HW H H' (HF & HT & HO & HJ & H0 & HA & HE & HY & (v0 & r0 & E & HR) & HZ) Y Y'.
  assert (SY : Forall still (ys ++ zs)).
  { apply Forall_app. split; [exact (Forall_impl _ adds_still (beside_adds ys HY))|exact (Forall_impl _ goes_still HZ)]. }
  apply (grown_both md d ms ms' pgs fr vs (ys ++ zs) (ws ++ ys ++ zs)); auto.
  - apply Forall_app. split; [|exact SY]. exact (Forall_impl _ adds_still (beside_adds ws (is_beside ws HA))).
  - intros r r' q q' SI T T'. rewrite app_assoc in HJ. rewrite E in *.
    exact (texts_amid d (place_in d (List.concat pgs) fr vs) vs ws ys v0 r0 r r' q q' HR HO HJ H0 HA HE HY SI T T').
Qed.
