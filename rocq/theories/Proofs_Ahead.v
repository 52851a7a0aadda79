(** Proofs for C89. *)

From Coq Require Import ZifyBool ZifyNat Lia.
From Verif Require Import Base Str Multi Color Raster Font Graphic Config Sign Render
  Spec_Multi Spec_Color Spec_Font Spec_Graphic Spec_Sign Spec_Render Spec_Layout Spec_Draw Spec_Page Spec_Safe Spec_Fail Spec_Below Spec_Beside Spec_Apart Spec_Longer Spec_Ahead
  Proofs_Str Proofs_Norm Proofs_Font Proofs_Graphic Proofs_Sign Proofs_Render Proofs_Pages Proofs_Horiz Proofs_Vert Proofs_Layout
  Proofs_Place Proofs_Draw Proofs_Page Proofs_Orderly Proofs_Modes Proofs_Safe Proofs_Text Proofs_Fail Proofs_Verdict Proofs_First Proofs_Unique Proofs_Below Proofs_Beside Proofs_Longer Proofs_Above.
Open Scope list_scope.

(** ** Texts with a later number *)

Definition renumber_state (k : Z) (r : RenderState) : RenderState := set_span r (rs_span r + k).
Definition renumber (k : Z) (s : Span) : Span :=
  match s with SpText st t => SpText (renumber_state k st) t | SpHex st t => SpHex (renumber_state k st) t end.

Lemma is_beside ws : Forall is_text ws -> Forall adds_beside ws.
Proof. apply Forall_impl. intros v; destruct v; cbn; auto. Qed.

Lemma text_beside d y : Forall adds_beside y -> forall past past' n k, text_at d past (n + k) y = text_at d past' n y + k.
Proof.
  induction 1 as [|v y V _ IH]; intros past past' n k; cbn [text_at]; [reflexivity|].
  destruct v; try contradiction; unfold changes_jp; cbn [says_jp]; try apply IH.
  all: replace (n + k + 1) with ((n + 1) + k) by lia; apply IH.
Qed.

Lemma text_only d ws : Forall is_text ws -> forall past n, text_at d past n ws = n + Z.of_nat (List.length ws).
Proof.
  induction 1 as [|v ws V _ IH]; intros past n; cbn [text_at List.length]; [lia|]. rewrite IH. destruct v; try contradiction; lia.
Qed.

Lemma beside_newlines y : Forall adds_beside y -> newlines y = 0.
Proof. induction 1 as [|v y V _ IH]; cbn [newlines]; [auto|]. destruct v; try contradiction; exact IH. Qed.

Lemma orderly_beside d past vs w : Orderly d past vs -> Forall adds_beside w -> Orderly d past (vs ++ w).
Proof.
  intros HO HW a v b E. destruct v; auto.
  all: apply app_eq_app in E as (k & [[E1 E2]|[E1 E2]]);
    [|rewrite E2 in HW; apply Forall_app in HW as [_ HW]; inversion HW; contradiction].
  all: destruct k as [|z k]; cbn [app] in E2; [rewrite <- E2 in HW; inversion HW; contradiction|].
  all: injection E2 as <- _; exact (HO a _ k E1).
Qed.

Section Texts.
Variables (d : Dms) (c : Place) (vs ws : list Value).
Notation past := (pl_earlier c ++ pl_upto c).
Notation k := (Z.of_nat (List.length ws)).
Hypothesis HW : Forall is_text ws.

Lemma ahead_force {A} (f : Value -> option A) x p y : (forall v, is_text v -> f v = None) ->
  in_force f x (p ++ vs ++ ws ++ y) = in_force f x (p ++ vs ++ y).
Proof.
  intros H. rewrite (force_app f p), (force_app f vs), (force_app f ws).
  rewrite (force_none f ws); [|eapply Forall_impl; [exact H|exact HW]]. rewrite (force_app f p), (force_app f vs). reflexivity.
Qed.

Lemma ahead_setting y : Forall adds_beside y -> setting d c (vs ++ ws ++ y) = renumber_state k (setting d c (vs ++ y)).
Proof.
  intros HY. unfold renumber_state, set_span, setting.
  cbn [rs_ctx rs_on_time rs_off_time rs_rect rs_jp rs_jl rs_font rs_font_vid rs_line_spacing rs_char_spacing rs_line rs_span].
  unfold page_colors, fg_of, jp_of, jl_of, font_of.
  rewrite !(ahead_force _ _ past y) by (intros v; destruct v; cbn; intros []; reflexivity).
  rewrite !(ahead_force _ _ (pl_upto c) y) by (intros v; destruct v; cbn; intros []; reflexivity).
  f_equal.
  - rewrite !(line_app d vs), (line_app d ws), !(line_added d y), (line_added d ws) by (apply beside_adds; auto; apply is_beside; auto).
    rewrite (beside_newlines ws) by (apply is_beside; auto). lia.
  - rewrite !(text_app d vs), (text_app d ws), (text_only d ws) by auto. apply text_beside; auto.
Qed.

Lemma ahead_texts ys : Forall adds_beside ys -> forall y, Forall adds_beside y ->
  texts d c (vs ++ ws ++ y) ys = map (renumber k) (texts d c (vs ++ y) ys).
Proof.
  induction 1 as [|v ys V _ IH]; intros y HY; cbn [texts]; [reflexivity|].
  rewrite map_app, ahead_setting by auto.
  replace ((vs ++ ws ++ y) ++ [v]) with (vs ++ ws ++ y ++ [v]) by now rewrite !app_assoc.
  rewrite IH by (apply Forall_app; split; auto). rewrite <- (app_assoc vs y). f_equal.
  destruct v; try contradiction; reflexivity.
Qed.
End Texts.

(** ** Heights of a line that ends with different text of the same kind *)

Lemma like_greatest (R : Span -> Z -> Prop) g m n v : (forall t u w, In t m -> In u n -> (R t w <-> R u w)) -> m <> [] -> n <> [] ->
  Greatest R (g ++ m) v -> Greatest R (g ++ n) v.
Proof.
  intros H Nm Nn ((x & J & K) & L). destruct m as [|t m]; [congruence|]. destruct n as [|u n]; [congruence|]. split.
  - apply in_app_or in J as [J|J]; [exists x; split; [apply in_or_app; auto|exact K]|].
    exists u. split; [apply in_elt|]. exact (proj1 (H x u v J (or_introl eq_refl)) K).
  - intros y w Iy Y. apply in_app_or in Iy as [Iy|Iy]; [apply (L y w); auto; apply in_or_app; auto|].
    apply (L t w); [apply in_elt|]. exact (proj2 (H t y w (or_introl eq_refl) Iy) Y).
Qed.

Lemma like_asked g m n o : (forall t u, In t m -> In u n -> Alike t u) -> m <> [] -> n <> [] -> Asked (g ++ m) o -> Asked (g ++ n) o.
Proof.
  intros H Nm Nn A. destruct m as [|t m]; [congruence|]. destruct n as [|u n]; [congruence|].
  assert (E : forall x y, In x (t :: m) -> In y (u :: n) -> rs_line_spacing (span_state y) = rs_line_spacing (span_state x)).
  { intros x y Ix Iy. apply (H x y Ix Iy). }
  remember (g ++ t :: m) as l eqn:El. destruct A as [l N|l a x b z E' N X]; subst l.
  - apply As_none. intros y I. apply in_app_or in I as [I|I]; [apply N, in_or_app; auto|].
    rewrite (E t y (or_introl eq_refl) I). apply N, in_elt.
  - assert (C : (exists k, g = a ++ x :: k) \/ (In x (t :: m) /\ forall y, In y g -> In y a)).
    { apply app_eq_app in E' as (k & [[E1 E2]|[E1 E2]]).
      - destruct k as [|y k]; cbn [app] in E2; [right|injection E2 as <- _; left; eauto].
        rewrite app_nil_r in E1. subst a. split; [rewrite <- E2; now left|auto].
      - right. split; [rewrite E2; apply in_elt|]. intros y I. rewrite E1. apply in_or_app; auto. }
    destruct C as [(k & ->)|(I & G)].
    + rewrite <- app_assoc. exact (As_some _ a x (k ++ u :: n) z eq_refl N X).
    + apply (As_some _ g u n z eq_refl); [intros y Iy; apply N, G, Iy|]. rewrite (E x u I (or_introl eq_refl)). exact X.
Qed.

Lemma like_stack d init g m n v : (forall t u, In t m -> In u n -> Alike t u) -> m <> [] -> n <> [] ->
  StackHeight d (init ++ [g ++ m]) v -> StackHeight d (init ++ [g ++ n]) v.
Proof.
  intros H Nm Nn K.
  assert (GH : forall v, Greatest (HeightOf (d_fonts d)) (g ++ m) v -> Greatest (HeightOf (d_fonts d)) (g ++ n) v).
  { intros w. apply like_greatest; auto. intros t u x It Iu.
    split; intros (f & F & ->); exists f; (split; [apply (alike_font _ t u f (H t u It Iu)); exact F|reflexivity]). }
  assert (GL : forall v, Greatest (LeadOf (d_fonts d)) (g ++ m) v -> Greatest (LeadOf (d_fonts d)) (g ++ n) v).
  { intros w. apply like_greatest; auto. intros t u x It Iu.
    split; intros (f & F & ->); exists f; (split; [apply (alike_font _ t u f (H t u It Iu)); exact F|reflexivity]). }
  remember (init ++ [g ++ m]) as ls eqn:E. destruct K as [|l h G|r p l v g' h S G' G].
  - destruct init; discriminate E.
  - destruct init as [|i init]; [|destruct init; discriminate E]. injection E as ->. apply Sk_one; auto.
  - change (r ++ [p; l]) with (r ++ [p] ++ [l]) in E. rewrite app_assoc in E. apply app_inj_tail in E as [<- ->].
    rewrite <- app_assoc. cbn [app]. apply Sk_snoc; auto.
    destruct G' as [C|z C A|a b C A G1 G2]; [now constructor 1|apply Lg_set; auto|apply Lg_avg; auto];
      apply (like_asked g m n); auto.
Qed.

(** ** Rows *)

Section Rows.
Variables (d : Dms) (l m n : list Span) (j : JustificationPage) (i : Z).
Hypothesis HK : Stacked l.
Hypothesis HL : forall s, In s l -> s_jp s = j -> s_line s <= i.
Hypothesis HI : i = 0 \/ exists s, In s l /\ s_jp s = j /\ s_line s = i - 1.
Hypothesis HM : forall t, In t m -> s_jp t = j /\ s_line t = i.
Hypothesis HN : forall t, In t n -> s_jp t = j /\ s_line t = i.
Hypothesis HA : forall t u, In t m -> In u n -> Alike t u.
Hypothesis Em : m <> [].
Hypothesis En : n <> [].

Lemma like_counted s b : s_jp s = j -> Picked (SameBlock s) l b -> exists init g, Z.of_nat (List.length init) = i
  /\ Counted (b ++ m) (init ++ [g ++ m]) /\ Counted (b ++ n) (init ++ [g ++ n]).
Proof.
  intros J P.
  assert (P0 : forall t, In t b -> 0 <= s_line t).
  { intros t It. apply (Picked_in _ _ _ _ P) in It as [It _]. apply in_split in It as (a & a' & E). apply (HK a t a' E). }
  destruct (counted_total b P0) as (ls & C).
  assert (BL : BlockLines l s ls).
  { apply counted_block; auto. rewrite <- (Picked_fun _ _ _ _ P (block_picked l s)). exact C. }
  destruct BL as [B1 B2].
  assert (L1 : i <= Z.of_nat (List.length ls)).
  { destruct HI as [->|(u & Iu & U1 & U2)]; [lia|]. destruct (B2 u Iu) as [_ U]; [unfold SameBlock; congruence|]. lia. }
  assert (L2 : Z.of_nat (List.length ls) <= i + 1).
  { destruct (Z_le_dec (Z.of_nat (List.length ls)) (i + 1)); auto. exfalso.
    destruct ls as [|g ls _] using rev_ind; [cbn [List.length] in *; destruct HI as [->|(u & Iu & U1 & U2)]; [lia|];
      destruct (B2 u Iu) as [U U']; [unfold SameBlock; congruence|cbn [List.length] in *; lia]|].
    rewrite app_length in *. cbn [List.length] in *.
    destruct (B1 (List.length ls) g) as [Ng Q]; [rewrite nth_error_app2, Nat.sub_diag by lia; reflexivity|].
    destruct g as [|u g]; [congruence|]. destruct (proj1 (Picked_in _ _ _ u Q) (or_introl eq_refl)) as [Iu [U1 U2]].
    unfold SameBlock in U1. specialize (HL u Iu). rewrite J in U1. specialize (HL U1). lia. }
  assert (A : forall z, (forall t, In t z -> s_jp t = j /\ s_line t = i) -> z <> [] ->
            forall init g, ls = init ++ [g] /\ Z.of_nat (List.length init) = i \/ ls = init /\ g = [] /\ Z.of_nat (List.length init) = i ->
            Counted (b ++ z) (init ++ [g ++ z])).
  { intros z Hz Nz init g [[E Li]|(E & -> & Li)].
    - rewrite E in C. apply counted_more; auto. intros t It. rewrite Li. apply (Hz t It).
    - destruct z as [|t z]; [congruence|]. change (t :: z) with ([t] ++ z). rewrite app_assoc. cbn [app].
      apply (counted_more init [t] z); [|intros u Iu; rewrite Li; apply (Hz u); now right].
      apply Ct_new; [rewrite <- E; exact C|]. destruct (Hz t (or_introl eq_refl)); lia. }
  destruct (Z.eq_dec (Z.of_nat (List.length ls)) i) as [E|E].
  - exists ls, []. split; [exact E|]. split; (apply A; auto).
  - destruct ls as [|g ls _] using rev_ind.
    { exfalso. cbn [List.length] in *. destruct HI as [->|(u & Iu & U1 & U2)]; [lia|]. 
      destruct (B2 u Iu) as [U U']; [unfold SameBlock; congruence|]. cbn [List.length] in *. lia. }
    rewrite app_length in *. cbn [List.length] in *.
    exists ls, g. split; [lia|]. split; (apply A; auto; left; split; [reflexivity|lia]).
Qed.

Lemma like_y s s' x y : s_jp s' = s_jp s -> s_line s' = s_line s -> s_rect s' = s_rect s ->
  (forall h, HeightOf (d_fonts d) s' h <-> HeightOf (d_fonts d) s h) ->
  AtY d (l ++ m) s x -> AtY d (l ++ n) s' y -> x = y.
Proof.
  intros E1 E2 E3 EH (bl & ls & a & t & b & h & P & C & SA & ST & _ & X & Hh & ->)
    (bl' & ls' & a' & t' & b' & h' & P' & C' & SA' & ST' & _ & X' & Hh' & ->).
  apply EH in Hh'. rewrite (HeightOf_fun _ _ _ _ Hh' Hh). rewrite E1, E3 in X'. rewrite E2 in SA'. f_equal.
  assert (EB : forall u, SameBlock s u <-> SameBlock s' u) by (intros u; unfold SameBlock; rewrite E1; reflexivity).
  apply (Picked_iff (SameBlock s)) in P'; auto.
  assert (Q : a' = a /\ t' = t); [|destruct Q as [-> ->]; exact (place_y_fun _ _ _ _ _ _ _ _ X X')].
  apply Picked_app in P as (g1 & g2 & -> & P1 & P2), P' as (g1' & g2' & -> & P1' & P2').
  rewrite (Picked_fun _ _ _ _ P1' P1) in *.
  destruct (jp_dec (s_jp s) j) as [J|J].
  - assert (g2 = m) as ->.
    { apply (Picked_fun _ _ _ _ P2), picked_all. intros u Iu. unfold SameBlock. rewrite J. apply (HM u Iu). }
    assert (g2' = n) as ->.
    { apply (Picked_fun _ _ _ _ P2'), picked_all. intros u Iu. unfold SameBlock. rewrite J. apply (HN u Iu). }
    destruct (like_counted s g1 J P1) as (init & g & Li & Cm & Cn).
    rewrite (counted_fun _ _ C _ Cm), (counted_fun _ _ C' _ Cn) in *.
    split.
    + set (k := Z.to_nat (s_line s + 1)) in *. destruct (Nat.le_gt_cases k (List.length init)) as [L|L].
      * rewrite firstn_app in SA, SA'. replace (k - List.length init)%nat with 0%nat in * by lia. cbn [firstn] in *.
        rewrite !app_nil_r in *. exact (StackHeight_fun d _ _ _ SA' SA).
      * rewrite !firstn_all2 in SA, SA' by (rewrite app_length; cbn [List.length]; lia).
        apply (like_stack d init g m n) in SA; auto. exact (StackHeight_fun d _ _ _ SA' SA).
    + apply (like_stack d init g m n) in ST; auto. exact (StackHeight_fun d _ _ _ ST' ST).
  - assert (g2 = []) as ->.
    { destruct g2 as [|u g2]; auto. destruct (proj1 (Picked_in _ _ _ u P2) (or_introl eq_refl)) as [Iu U].
      unfold SameBlock in U. destruct (HM u Iu). congruence. }
    assert (g2' = []) as ->.
    { destruct g2' as [|u g2']; auto. destruct (proj1 (Picked_in _ _ _ u P2') (or_introl eq_refl)) as [Iu U].
      unfold SameBlock in U. destruct (HN u Iu). congruence. }
    rewrite (counted_fun _ _ C' _ C) in *.
    split; [exact (StackHeight_fun d _ _ _ SA' SA)|exact (StackHeight_fun d _ _ _ ST' ST)].
Qed.
End Rows.

(** ** Columns *)

Section Columns.
Variables (d : Dms) (k : Z).
Notation rn := (renumber k).

Lemma rn_same s : s_jp (rn s) = s_jp s /\ s_line (rn s) = s_line s /\ s_jl (rn s) = s_jl s /\ s_rect (rn s) = s_rect s.
Proof. destruct s; splits; reflexivity. Qed.

Lemma rn_set s f cs : SetWith (d_fonts d) (rn s) f cs <-> SetWith (d_fonts d) s f cs.
Proof.
  assert (S : forall t, ShowsText (rn s) t <-> ShowsText s t).
  { intros t. destruct s; cbn [renumber]; split; inversion 1; subst; constructor; auto. }
  assert (F : FontOf (d_fonts d) (rn s) f <-> FontOf (d_fonts d) s f) by (destruct s; reflexivity).
  split; intros (G & t & S1 & S2); (split; [now apply F|]); exists t; (split; [now apply S|exact S2]).
Qed.

Lemma rn_width s w : SpanWidth (d_fonts d) s w -> SpanWidth (d_fonts d) (rn s) w.
Proof.
  intros (f & cs & H & ->). exists f, cs. split; [now apply rn_set|]. destruct s; reflexivity.
Qed.

Lemma rn_gap s t g : Gap (d_fonts d) s t g -> Gap (d_fonts d) (rn s) (rn t) g.
Proof.
  intros [n C|f h C F H].
  - apply Gap_set. destruct t; exact C.
  - replace (spacing_in s f) with (spacing_in (rn s) f) by (destruct s; reflexivity).
    replace (spacing_in t h) with (spacing_in (rn t) h) by (destruct t; reflexivity).
    apply Gap_avg; [destruct t; exact C|destruct s; exact F|destruct t; exact H].
Qed.

Lemma rn_run run w : RunWidth (d_fonts d) run w -> RunWidth (d_fonts d) (map rn run) w.
Proof.
  induction 1 as [s w W|s t r w g v W G R IH]; cbn [map] in *.
  - apply Rw_one. now apply rn_width.
  - apply Rw_cons; auto; [now apply rn_width|now apply rn_gap].
Qed.

Lemma run_cut fonts s post p : forall pre t, RunWidth fonts (pre ++ p :: s :: post) t ->
  exists w g v, RunWidth fonts (pre ++ [p]) w /\ Gap fonts p s g /\ RunWidth fonts (s :: post) v /\ t = w + g + v.
Proof.
  induction pre as [|x pre IH]; intros t H; cbn [app] in H.
  - inversion H as [|? ? ? w g v W G R]; subst. exists w, g, v. cbn [app]. splits; auto. now apply Rw_one.
  - destruct pre as [|z pre]; cbn [app] in *; inversion H as [|? ? ? w g v W G R]; subst;
      destruct (IH _ R) as (w' & g' & v' & R1 & G1 & R2 & ->); exists (w + g + w'), g', v'; splits; auto; try lia; now apply Rw_cons.
Qed.

Lemma run_tail fonts pre s post b t : Before fonts pre s b -> RunWidth fonts (pre ++ s :: post) t ->
  exists v, RunWidth fonts (s :: post) v /\ t = b + v.
Proof.
  intros [s'|pre' p s' w g R G] H; [exists t; split; [exact H|lia]|].
  rewrite <- app_assoc in H. apply run_cut in H as (w' & g' & v & R' & G' & V & ->). exists v. split; auto.
  rewrite (RunWidth_fun _ _ _ _ R R'), (Gap_fun _ _ _ _ _ G G'). reflexivity.
Qed.

Lemma ahead_x l n a s e x y : s_jl s = JlRight -> (forall t, In t e -> SameRun s t) ->
  Numbered (l ++ a ++ s :: e) -> Numbered (l ++ n ++ map rn (a ++ s :: e)) ->
  AtX d (l ++ a ++ s :: e) s x -> AtX d (l ++ n ++ map rn (a ++ s :: e)) (rn s) y -> x = y.
Proof.
  intros J HE N N' X X'. rewrite map_app in *. cbn [map] in *.
  apply at_placed_x in X; auto; [|rewrite app_assoc; apply in_elt].
  apply at_placed_x in X'; auto; [|rewrite !app_assoc; apply in_elt].
  destruct X as (pre & post & b & t & P & B & W & _ & X), X' as (pre' & post' & b' & t' & P' & B' & W' & _ & X').
  rewrite app_assoc in P, N. rewrite !app_assoc in P', N'.
  destruct (Proofs_Place.picked_split _ _ _ _ _ N P) as [_ P2], (Proofs_Place.picked_split _ _ _ _ _ N' P') as [_ P2'].
  assert (post = e) as -> by (apply (Picked_fun _ _ _ _ P2), picked_all; exact HE).
  assert (post' = map rn e) as ->.
  { apply (Picked_fun _ _ _ _ P2'), picked_all. intros u Iu. apply in_map_iff in Iu as (z & <- & Iz).
    destruct (HE z Iz) as (Z1 & Z2 & Z3), (rn_same s) as (A1 & A2 & A3 & _), (rn_same z) as (B1 & B2 & B3 & _).
    unfold SameRun. splits; congruence. }
  destruct (run_tail _ _ _ _ _ _ B W) as (v & V & ->), (run_tail _ _ _ _ _ _ B' W') as (v' & V' & ->).
  change (rn s :: map rn e) with (map rn (s :: e)) in V'. rewrite (RunWidth_fun _ _ _ _ V' (rn_run _ _ V)) in X'.
  destruct (rn_same s) as (_ & _ & A3 & A4). rewrite A3, A4 in X'. rewrite J in X, X'. cbn in X, X'. lia.
Qed.
End Columns.

(** ** Pages *)

Lemma at_x_swap d l m n s x y : (forall t, In t m -> ~ SameRun s t) -> (forall t, In t n -> ~ SameRun s t) ->
  AtX d (l ++ m) s x -> AtX d (l ++ n) s y -> x = y.
Proof.
  intros Hm Hn (run & b & t & P & O & W & _ & X) (run' & b' & t' & P' & O' & W' & _ & X').
  apply picked_front in P; auto. apply picked_front in P'; auto. rewrite (Picked_fun _ _ _ _ P' P) in *.
  rewrite (RunOffset_fun d _ _ _ _ _ O' O), (RunWidth_fun _ _ _ _ W' W) in X'. exact (place_x_fun _ _ _ _ _ _ _ _ X X').
Qed.

Lemma some_text d c ys : Exists is_text ys -> forall vs, texts d c vs ys <> [].
Proof.
  induction 1 as [v ys V|v ys _ IH]; intros vs E; cbn [texts] in E.
  - destruct v; try contradiction; discriminate E.
  - apply app_eq_nil in E as [_ E]. exact (IH _ E).
Qed.

Lemma texts_ahead d c vs ws ys r r' q q' : Orderly d (pl_earlier c ++ pl_upto c) vs ->
  jl_of d ((pl_earlier c ++ pl_upto c) ++ vs) = JlRight -> text_at d (pl_earlier c ++ pl_upto c) 0 vs = 0 ->
  Forall is_text ws -> Exists is_text ys -> Forall adds_beside ys ->
  SameImage r r' -> TextsShown d c (vs ++ ys) r q -> TextsShown d c (vs ++ ws ++ ys) r' q' ->
  Over (fun k => exists t, In t (texts d c vs ws) /\ k = foreground_rgb (rs_ctx (span_state t))) q q'.
Proof.
  intros HO HJ H0 HW HE HY S T T'.
  pose proof (is_beside ws HW) as HWb.
  assert (HWY : Forall adds_beside (ws ++ ys)) by (apply Forall_app; auto).
  destruct (orderly d c _ (orderly_beside d _ vs ys HO HY)) as [N1 _].
  destruct (orderly d c _ (orderly_beside d _ vs (ws ++ ys) HO HWY)) as [N2 _].
  pose proof (orderly_inv d c vs HO) as IV.
  assert (HS : Forall span_fields (texts d c [] (vs ++ ys))) by (destruct T; auto).
  apply ts_at in T, T'. rewrite !texts_app in *. cbn [app] in *.
  set (k := Z.of_nat (List.length ws)) in *.
  pose proof (ahead_texts d c vs ws HW ys HY [] (Forall_nil _)) as EY. rewrite !app_nil_r in EY. fold k in EY.
  pose proof (beside_texts d c (ws ++ ys) HWY vs) as AN. rewrite texts_app in AN.
  rewrite EY in T', N2, AN.
  pose proof (beside_texts d c ys HY vs) as AM.
  set (l := texts d c [] vs) in *. set (m := texts d c vs ys) in *. set (w := texts d c vs ws) in *.
  set (st := setting d c vs) in *.
  apply Forall_app in HS as [HSl _]. rewrite Forall_forall in HSl.
  assert (Em : m <> []) by exact (some_text d c ys HE vs).
  assert (En : w ++ map (renumber k) m <> []) by (destruct w, m; try congruence; discriminate).
  assert (NR : forall s t, In s l -> AlikeState st (span_state t) -> ~ SameRun t s).
  { intros s t Is (A1 & A2 & A3 & _) (R1 & R2 & R3). unfold s_jp, s_line, s_jl in R1, R2, R3. rewrite A1 in R1. rewrite A3 in R2. rewrite A2 in R3.
    destruct (iv_same d c vs IV s Is R1) as (_ & _ & K). destruct (K R2) as [_ K2]. specialize (K2 R3).
    destruct (HSl s Is) as (_ & _ & _ & U & _). unfold u8 in U. rewrite H0 in K2. lia. }
  assert (LY : forall s s' x y, s_jp s' = s_jp s -> s_line s' = s_line s -> s_rect s' = s_rect s ->
     (forall h, HeightOf (d_fonts d) s' h <-> HeightOf (d_fonts d) s h) ->
     AtY d (l ++ m) s x -> AtY d (l ++ w ++ map (renumber k) m) s' y -> x = y).
  { intros s s' x y. apply (like_y d l m (w ++ map (renumber k) m) (rs_jp st) (rs_line st)); auto.
    - exact (iv_stacked d c vs IV).
    - intros u Iu E. exact (proj1 (iv_same d c vs IV u Iu E)).
    - exact (iv_above d c vs IV).
    - intros t It. destruct (AM t It) as (A1 & _ & A3 & _). auto.
    - intros t It. destruct (AN t It) as (A1 & _ & A3 & _). auto.
    - intros t u It Iu. destruct (AM t It) as (A1 & A2 & A3 & A4 & A5 & A6 & A7), (AN u Iu) as (B1 & B2 & B3 & B4 & B5 & B6 & B7).
      unfold Alike, s_jp, s_line, s_rect. splits; congruence. }
  apply drawn_app in T as (p1 & D1 & D2). apply drawn_app in T' as (p1' & D1' & D2'). apply drawn_app in D2' as (p2' & D2' & D3').
  assert (SI : SameImage p1 p1').
  { apply (drawn_places d (l ++ m) (l ++ w ++ map (renumber k) m) l r p1 D1) with (p' := r'); auto.
    - intros s x y Is. apply at_x_swap; intros t It R; apply (NR s t Is); auto; now apply SameRun_sym.
    - intros s x y Is. apply LY; auto. reflexivity. }
  refine (over_drawn d (renumber k) _ _ _ _ _ _ _ _ _ D2 _ _ p2' q' _ D3').
  - intros s f cs. apply rn_set.
  - intros s f; destruct s; reflexivity.
  - intros s; destruct s; reflexivity.
  - intros s x y Is. pose proof Is as Is'. apply in_split in Is as (a & e & E). pose proof (AM s Is') as As. rewrite E in *.
    apply ahead_x; auto.
    + destruct As as (_ & A2 & _). unfold s_jl. rewrite A2. exact HJ.
    + intros t It. assert (At : AlikeState st (span_state t)) by (apply AM, in_or_app; right; now right).
      destruct As as (A1 & A2 & A3 & _), At as (B1 & B2 & B3 & _). unfold SameRun, s_jp, s_line, s_jl. splits; congruence.
  - intros s x y Is. destruct (rn_same k s) as (R1 & R2 & _ & R4). apply LY; auto. destruct s; reflexivity.
  - refine (over_added d _ _ _ _ _ _ D2' p1 SI). intros s I. eauto.
Qed.

Lemma longer_ahead md d ms ms' pgs fr vs ws ys ps ps' : Built d -> (md = Release -> ~ Wraps d ms /\ ~ Wraps d ms') ->
  HasPage ms pgs (fr ++ vs ++ ys) -> HasPage ms' pgs (fr ++ vs ++ ws ++ ys) -> TextAhead d (List.concat pgs) fr vs ws ys ->
  Yields md d ms (map Ok ps) -> Yields md d ms' (map Ok ps') ->
  GrownAt (shown_for d [] pgs) (fun _ _ k => exists t, AddedColor d (List.concat pgs) fr vs ws t k) ps ps'.
Proof.
  intros HB HW H H' (HF & HT & HO & HJ & H0 & HA & HE & HY) Y Y'.
  pose proof (Forall_impl _ adds_still (beside_adds ys HY)) as SY.
  apply (grown_both md d ms ms' pgs fr vs ys (ws ++ ys)); auto.
  - apply Forall_app. split; [|exact SY]. exact (Forall_impl _ adds_still (beside_adds ws (is_beside ws HA))).
  - intros r r' q q' SI T T'. rewrite app_assoc in HJ.
    exact (texts_ahead d (place_in d (List.concat pgs) fr vs) vs ws ys r r' q q' HO HJ H0 HA HE HY SI T T').
Qed.
