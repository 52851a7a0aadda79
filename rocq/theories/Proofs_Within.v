(** Proofs for C90. *)

From Coq Require Import ZifyBool ZifyNat Lia.
From Verif Require Import Base Str Multi Color Raster Font Graphic Config Sign Render
  Spec_Multi Spec_Color Spec_Font Spec_Graphic Spec_Sign Spec_Render Spec_Layout Spec_Draw Spec_Page Spec_Safe Spec_Fail Spec_Below Spec_Beside Spec_Apart Spec_Longer Spec_Within
  Proofs_Str Proofs_Norm Proofs_Font Proofs_Graphic Proofs_Sign Proofs_Render Proofs_Pages Proofs_Horiz Proofs_Vert Proofs_Layout
  Proofs_Place Proofs_Draw Proofs_Page Proofs_Orderly Proofs_Modes Proofs_Safe Proofs_Text Proofs_Fail Proofs_Verdict Proofs_First Proofs_Unique Proofs_Below Proofs_Beside Proofs_Longer Proofs_Above Proofs_Ahead.
Open Scope list_scope.

Definition ends_run (v : Value) : Prop := match v with VNewLine _ | VJustificationLine _ => True | _ => False end.

(** ** The texts that come after *)

Lemma same_changes d p p' v : jp_of d p' = jp_of d p -> changes_jp d p' v = changes_jp d p v.
Proof. intros E. unfold changes_jp. now rewrite E. Qed.

Lemma same_jp d p p' y : jp_of d p' = jp_of d p -> jp_of d (p' ++ y) = jp_of d (p ++ y).
Proof. unfold jp_of. intros E. rewrite !(force_app (says_jp d)). now rewrite E. Qed.

Lemma line_past d y : forall p p' n, jp_of d p' = jp_of d p -> line_at d p' n y = line_at d p n y.
Proof.
  induction y as [|v y IH]; intros p p' n E; cbn [line_at]; [reflexivity|].
  rewrite (same_changes d p p' v E). apply IH, same_jp, E.
Qed.

Lemma text_past d y : forall p p' n, jp_of d p' = jp_of d p -> text_at d p' n y = text_at d p n y.
Proof.
  induction y as [|v y IH]; intros p p' n E; cbn [text_at]; [reflexivity|].
  rewrite (same_changes d p p' v E). apply IH, same_jp, E.
Qed.

Section Texts.
Variables (d : Dms) (c : Place) (vs ws : list Value).
Notation past := (pl_earlier c ++ pl_upto c).
Hypothesis HV : exists r v, vs = r ++ [v] /\ is_text v.
Hypothesis HW : Forall adds_beside ws.
Hypothesis HF : fg_of d (past ++ vs ++ ws) = fg_of d (past ++ vs).
Hypothesis HS : in_force says_spacing None (past ++ vs ++ ws) = in_force says_spacing None (past ++ vs).

Lemma within_force {A} (f : Value -> option A) x p y : in_force f x (p ++ vs ++ ws) = in_force f x (p ++ vs) ->
  in_force f x (p ++ vs ++ ws ++ y) = in_force f x (p ++ vs ++ y).
Proof.
  intros H. rewrite !app_assoc in *. rewrite (force_app f _ y), (force_app f (p ++ vs) y). now rewrite H.
Qed.

Lemma within_none {A} (f : Value -> option A) x p : (forall v, adds_beside v -> f v = None) ->
  in_force f x (p ++ vs ++ ws) = in_force f x (p ++ vs).
Proof.
  intros H. rewrite !app_assoc, force_app. apply force_none. eapply Forall_impl; [exact H|exact HW].
Qed.

Lemma within_setting v0 r : ends_run v0 -> setting d c (vs ++ ws ++ v0 :: r) = setting d c (vs ++ v0 :: r).
Proof.
  intros H0. unfold setting.
  assert (EJ : jp_of d (past ++ vs ++ ws) = jp_of d (past ++ vs)).
  { unfold jp_of. apply within_none. intros v; destruct v; cbn; intros []; reflexivity. }
  assert (EW : line_at d (past ++ vs) (line_at d past 0 vs) ws = line_at d past 0 vs).
  { rewrite line_added by (apply beside_adds; auto). rewrite beside_newlines by auto. lia. }
  f_equal.
  - unfold page_colors, fg_of. f_equal. apply within_force. exact HF.
  - unfold jp_of. apply within_force. exact EJ.
  - unfold jl_of. apply within_force, within_none. intros v; destruct v; cbn; intros []; reflexivity.
  - unfold font_of. f_equal. apply within_force, within_none. intros v; destruct v; cbn; intros []; reflexivity.
  - unfold font_of. f_equal. apply within_force, within_none. intros v; destruct v; cbn; intros []; reflexivity.
  - apply within_force, within_none. intros v; destruct v; cbn; intros []; reflexivity.
  - apply within_force. exact HS.
  - rewrite !(line_app d vs), (line_app d ws), EW. apply line_past. now rewrite <- app_assoc.
  - rewrite !(text_app d vs), (text_app d ws). destruct v0; try contradiction; cbn [text_at]; apply text_past.
    all: apply same_jp; now rewrite <- app_assoc.
Qed.

Lemma vs_blank : blank_line vs = false.
Proof. destruct HV as (r & v & -> & V). unfold blank_line. rewrite Proofs_Page.in_force_snoc. destruct v; try contradiction; reflexivity. Qed.

Lemma within_blank y : blank_line (vs ++ ws ++ y) = blank_line (vs ++ y).
Proof.
  unfold blank_line. rewrite !(force_app _ vs). fold (blank_line vs). rewrite vs_blank, (force_app _ ws). f_equal.
  clear HF HS. induction HW as [|v w V W IH]; [reflexivity|]. destruct v; try contradiction; exact (IH W).
Qed.

Lemma within_later v0 ys : ends_run v0 -> forall r, texts d c (vs ++ ws ++ v0 :: r) ys = texts d c (vs ++ v0 :: r) ys.
Proof.
  intros H0. induction ys as [|v ys IH]; intros r; cbn [texts]; [reflexivity|].
  rewrite within_blank, within_setting by auto.
  replace ((vs ++ ws ++ v0 :: r) ++ [v]) with (vs ++ ws ++ v0 :: r ++ [v]) by (rewrite <- !app_assoc; reflexivity).
  rewrite IH. rewrite <- app_assoc. reflexivity.
Qed.

Lemma within_texts v0 r : ends_run v0 -> texts d c (vs ++ ws) (v0 :: r) = texts d c vs (v0 :: r).
Proof.
  intros H0. cbn [texts]. pose proof (within_blank []) as B. rewrite !app_nil_r in B. rewrite B, vs_blank.
  rewrite <- app_assoc, (within_later v0 r H0 []). destruct v0; try contradiction; reflexivity.
Qed.

(** No later text is in the run at the end of [vs]. *)
Definition Away (j : JustificationPage) (i : Z) (l : JustificationLine) (fresh : bool) : Prop :=
  jp_rank (jp_of d (past ++ vs)) < jp_rank j
  \/ j = jp_of d (past ++ vs)
     /\ (line_at d past 0 vs < i
         \/ i = line_at d past 0 vs /\ fresh = false /\ jl_rank (jl_of d (past ++ vs)) < jl_rank l).
Definition away (y : list Value) : Prop :=
  Away (jp_of d (past ++ vs ++ y)) (line_at d past 0 (vs ++ y)) (jl_of d (past ++ vs ++ y)) (fresh_at d past true (vs ++ y)).

Lemma vs_has : forall y, has_text (vs ++ y) = true.
Proof.
  intros y. destruct HV as (r & v & -> & V). unfold has_text. rewrite !existsb_app. cbn [existsb].
  destruct v; try contradiction; cbn; rewrite !orb_true_r; reflexivity.
Qed.

Lemma keep_jp p v : changes_jp d p v = false -> jp_of d (p ++ [v]) = jp_of d p.
Proof.
  unfold changes_jp, jp_of. rewrite Proofs_Page.in_force_snoc. destruct (says_jp d v) as [j|]; auto.
  fold (jp_of d p). intros E. destruct (jp_eqb j (jp_of d p)) eqn:Q; [|discriminate E].
  destruct j, (jp_of d p); try reflexivity; discriminate Q.
Qed.

Lemma away_step y v b : Orderly d past (vs ++ y ++ v :: b) -> away y -> away (y ++ [v]).
Proof.
  intros HO HA. specialize (HO (vs ++ y) v b ltac:(rewrite <- app_assoc; reflexivity)). unfold away, Away in *.
  set (p := past) in HO, HA |- *. clearbody p.
  rewrite (app_assoc vs y), line_at_snoc, fresh_at_snoc.
  assert (EL : (forall j, v <> VJustificationLine j) -> jl_of d (p ++ (vs ++ y) ++ [v]) = jl_of d (p ++ vs ++ y)).
  { intros N. unfold jl_of. rewrite app_assoc, Proofs_Page.in_force_snoc. destruct v; try reflexivity. now destruct (N j). }
  destruct (changes_jp d (p ++ vs ++ y) v) eqn:C.
  - assert (exists j, v = VJustificationPage j) as [j ->].
    { unfold changes_jp in C. destruct v; cbn [says_jp] in C; try discriminate C. eauto. }
    destruct HO as [HO|[HO|HO]]; [rewrite vs_has in HO; discriminate HO|congruence|].
    left. destruct HA as [HA|[HA _]]; [lia|]. rewrite <- HA. exact HO.
  - pose proof (keep_jp _ _ C) as EJ. rewrite <- !app_assoc in EJ. rewrite <- !app_assoc. rewrite EJ.
    rewrite <- app_assoc in EL.
    destruct HA as [HA|(J & HA)]; [left; exact HA|right; split; [exact J|]].
    destruct v; try (rewrite EL by discriminate); try (destruct HA as [HA|(H1 & H2 & H3)]; [left; lia|right; auto; fail]).
    + destruct HA as [HA|(H1 & H2 & H3)]; [left; exact HA|]. right. splits; auto.
      destruct HO as [HO|HO]; [congruence|]. rewrite <- !app_assoc in HO. lia.
    + left. destruct HA as [HA|(H1 & _)]; lia.
Qed.

Lemma away_first v b : ends_run v -> Orderly d past (vs ++ v :: b) -> away [v].
Proof.
  intros H HO. specialize (HO vs v b eq_refl). unfold away. rewrite line_at_snoc, fresh_at_snoc.
  assert (FR : fresh_at d past true vs = false).
  { destruct HV as (r & x & -> & V). rewrite fresh_at_snoc. destruct x; try contradiction; reflexivity. }
  assert (EJ : jp_of d (past ++ vs ++ [v]) = jp_of d (past ++ vs)).
  { unfold jp_of. rewrite app_assoc, Proofs_Page.in_force_snoc. destruct v; try contradiction; reflexivity. }
  right. split; [exact EJ|]. destruct v; try contradiction.
  - right. unfold changes_jp. cbn [says_jp]. splits; auto. destruct HO as [HO|HO]; [congruence|exact HO].
  - left. lia.
Qed.

Definition RunHere (t : Span) : Prop :=
  s_jp t = jp_of d (past ++ vs) /\ s_line t = line_at d past 0 vs /\ s_jl t = jl_of d (past ++ vs).

Lemma away_here y t : away y -> span_state t = setting d c (vs ++ y) -> ~ RunHere t.
Proof.
  intros A E (R1 & R2 & R3). unfold s_jp, s_line, s_jl in *. rewrite E in *. unfold setting in *. cbn [rs_jp rs_line rs_jl] in *.
  unfold away in A. rewrite R1, R2, R3 in A. destruct A as [A|(_ & [A|(_ & _ & A)])]; lia.
Qed.

Lemma away_texts ys : forall y, Orderly d past (vs ++ y ++ ys) -> away y -> forall t, In t (texts d c (vs ++ y) ys) -> ~ RunHere t.
Proof.
  induction ys as [|v ys IH]; intros y HO A t I; [destruct I|]. cbn [texts] in I. apply in_app_or in I as [I|I].
  - apply (away_here y); auto. destruct v; try (now destruct I); try (destruct (blank_line (vs ++ y)); [|now destruct I]);
      destruct I as [<-|[]]; reflexivity.
  - rewrite <- app_assoc in I. apply (IH (y ++ [v])); auto; [rewrite <- app_assoc; exact HO|exact (away_step y v ys HO A)].
Qed.

Lemma away_all v0 r : ends_run v0 -> Orderly d past (vs ++ v0 :: r) -> forall t, In t (texts d c vs (v0 :: r)) -> ~ RunHere t.
Proof.
  intros H0 HO t I. cbn [texts] in I. rewrite vs_blank in I.
  apply (away_texts r [v0]); auto; [exact (away_first v0 r H0 HO)|]. destruct v0; try contradiction; exact I.
Qed.
End Texts.

(** ** Lines with such text put in *)

Section Lines.
Variables (d : Dms) (w : list Span) (s0 : Span).
Hypothesis HW : forall t, In t w -> Alike s0 t.

Inductive Put : list Span -> list Span -> Prop :=
| Put_no l : Put l l
| Put_in g h : In s0 g -> Put (g ++ h) (g ++ w ++ h).

Lemma put_snoc l l' s : Put l l' -> Put (l ++ [s]) (l' ++ [s]).
Proof. intros [k|g h I]; [constructor|]. rewrite <- !app_assoc. now constructor. Qed.

Lemma put_greatest (R : Span -> Z -> Prop) l l' v : (forall t u, Alike s0 t -> R t u -> R s0 u) -> Put l l' ->
  Greatest R l v -> Greatest R l' v.
Proof.
  intros H [k|g h I]; auto. intros ((x & J & K) & L). split.
  - exists x. split; auto. apply in_app_or in J as [J|J]; apply in_or_app; [auto|right; apply in_or_app; auto].
  - intros y u Iy Y. apply in_app_or in Iy as [Iy|Iy]; [apply (L y); auto; apply in_or_app; auto|].
    apply in_app_or in Iy as [Iy|Iy]; [|apply (L y); auto; apply in_or_app; auto].
    apply (L s0); [apply in_or_app; auto|]. exact (H y u (HW y Iy) Y).
Qed.

Lemma put_asked l l' o : Put l l' -> Asked l o -> Asked l' o.
Proof.
  intros [k|g h I] A; auto. remember (g ++ h) as l0 eqn:El. destruct A as [l0 N|l0 a x b z E' N X]; subst l0.
  - apply As_none. intros y J. apply in_app_or in J as [J|J]; [apply N, in_or_app; auto|].
    apply in_app_or in J as [J|J]; [|apply N, in_or_app; auto].
    destruct (HW y J) as (_ & _ & _ & _ & _ & ->). apply N, in_or_app; auto.
  - assert (C : (exists k, g = a ++ x :: k) \/ exists k, a = g ++ k /\ h = k ++ x :: b).
    { apply app_eq_app in E' as (k & [[E1 E2]|[E1 E2]]).
      - destruct k as [|y k]; cbn [app] in E2; [right; exists []; rewrite !app_nil_r in *; auto|injection E2 as <- _; left; eauto].
      - right. exists k. auto. }
    destruct C as [(k & ->)|(k & -> & ->)].
    + rewrite <- app_assoc. exact (As_some _ a x (k ++ w ++ h) z eq_refl N X).
    + apply (As_some _ (g ++ w ++ k) x b z); [rewrite <- !app_assoc; reflexivity| |exact X].
      intros y J. apply in_app_or in J as [J|J]; [apply N, in_or_app; auto|].
      apply in_app_or in J as [J|J]; [|apply N, in_or_app; auto].
      destruct (HW y J) as (_ & _ & _ & _ & _ & ->). apply N, in_or_app; auto.
Qed.

Lemma put_height l l' v : Put l l' -> Greatest (HeightOf (d_fonts d)) l v -> Greatest (HeightOf (d_fonts d)) l' v.
Proof.
  apply put_greatest. intros t u A (f & F & ->). exists f. split; auto. now apply (alike_font _ s0 t f A).
Qed.
Lemma put_lead l l' v : Put l l' -> Greatest (LeadOf (d_fonts d)) l v -> Greatest (LeadOf (d_fonts d)) l' v.
Proof.
  apply put_greatest. intros t u A (f & F & ->). exists f. split; auto. now apply (alike_font _ s0 t f A).
Qed.

Lemma put_stack ls v : StackHeight d ls v -> forall ls', Forall2 Put ls ls' -> StackHeight d ls' v.
Proof.
  induction 1 as [|l h G|r p l v g h S IH G K]; intros ls' F.
  - inversion F. constructor.
  - inversion F as [|? l' ? ? P F']; subst. inversion F'; subst. apply Sk_one. exact (put_height _ _ _ P G).
  - apply Forall2_app_inv_l in F as (r' & z & F1 & F2 & ->). inversion F2 as [|? p' ? z' P F3]; subst.
    inversion F3 as [|? l' ? ? L F4]; subst. inversion F4; subst.
    apply Sk_snoc; [apply IH, Forall2_app; auto| |exact (put_height _ _ _ L K)].
    destruct G as [C|n C A|a b C A G1 G2]; [now apply Lg_cells|apply Lg_set; auto; exact (put_asked _ _ _ L A)|].
    apply Lg_avg; auto; [exact (put_asked _ _ _ L A)|exact (put_lead _ _ _ P G1)|exact (put_lead _ _ _ L G2)].
Qed.

Lemma put_firstn n : forall ls ls', Forall2 Put ls ls' -> Forall2 Put (firstn n ls) (firstn n ls').
Proof. induction n as [|n IH]; intros ls ls' F; [constructor|]. destruct F; cbn [firstn]; constructor; auto. Qed.

Lemma put_counted init g b : Counted b (init ++ [g]) -> In s0 g -> Z.of_nat (List.length init) = s_line s0 ->
  forall m, (forall t, In t m -> 0 <= s_line t) ->
  exists ls ls', Counted (b ++ m) ls /\ Counted (b ++ w ++ m) ls' /\ Forall2 Put ls ls'.
Proof.
  intros C I L. induction m as [|s m IH] using rev_ind; intros HM.
  - exists (init ++ [g]), (init ++ [g ++ w]). rewrite !app_nil_r. splits; auto.
    + apply counted_more; auto. intros t It. destruct (HW t It) as (_ & E & _). lia.
    + apply Forall2_app; [clear; induction init; constructor; auto; constructor|]. constructor; [|constructor].
      pose proof (Put_in g [] I) as P. rewrite !app_nil_r in P. exact P.
  - destruct IH as (ls & ls' & C1 & C2 & F); [intros t It; apply HM, in_or_app; auto|].
    assert (H0 : 0 <= s_line s) by (apply HM, in_elt).
    pose proof (Forall2_len _ _ _ F) as LF.
    destruct (Z_le_dec (Z.of_nat (List.length ls)) (s_line s)) as [K|K].
    + exists (ls ++ [[s]]), (ls' ++ [[s]]). rewrite !app_assoc. splits; [apply Ct_new; auto|apply Ct_new; [now rewrite <- app_assoc|lia]|].
      apply Forall2_app; auto. constructor; constructor.
    + destruct (nth_error ls (Z.to_nat (s_line s))) as [x|] eqn:E; [|apply nth_error_None in E; lia].
      apply nth_error_split in E as (a & post & -> & La).
      apply Forall2_app_inv_l in F as (a' & z & F1 & F2 & ->). inversion F2 as [|? x' ? post' P F3]; subst.
      pose proof (Forall2_len _ _ _ F1) as La'.
      exists (a ++ (x ++ [s]) :: post), (a' ++ (x' ++ [s]) :: post'). rewrite !app_assoc.
      splits; [apply Ct_old; auto; lia|apply Ct_old; [now rewrite <- app_assoc|lia]|].
      apply Forall2_app; auto. constructor; auto. now apply put_snoc.
Qed.
End Lines.

(** ** Places *)

Lemma at_x_insert d l w m s x y : (forall t, In t w -> ~ SameRun s t) -> AtX d (l ++ m) s x -> AtX d (l ++ w ++ m) s y -> x = y.
Proof.
  intros Hw (run & b & t & P & O & W & _ & X) (run' & b' & t' & P' & O' & W' & _ & X').
  apply Picked_app in P as (g1 & g2 & -> & P1 & P2), P' as (g1' & g2' & -> & P1' & P2').
  apply picked_after in P2'; auto. rewrite (Picked_fun _ _ _ _ P1' P1), (Picked_fun _ _ _ _ P2' P2) in *.
  rewrite (RunOffset_fun d _ _ _ _ _ O' O), (RunWidth_fun _ _ _ _ W' W) in X'. exact (place_x_fun _ _ _ _ _ _ _ _ X X').
Qed.

Lemma at_x_drop d l m s x : (forall t, In t m -> ~ SameRun s t) -> AtX d (l ++ m) s x -> AtX d l s x.
Proof. intros Hm (run & b & t & P & K). exists run, b, t. split; [|exact K]. exact (picked_front _ _ _ _ Hm P). Qed.

Section Places.
Variables (d : Dms) (l w m : list Span) (s0 : Span).
Hypothesis I0 : In s0 l.
Hypothesis HW : forall t, In t w -> Alike s0 t.
Hypothesis HL : forall s, In s l -> s_jp s = s_jp s0 -> s_line s <= s_line s0.
Hypothesis HK : Stacked l.
Hypothesis HM : forall t, In t m -> 0 <= s_line t.

Lemma within_y s x y : AtY d (l ++ m) s x -> AtY d (l ++ w ++ m) s y -> x = y.
Proof.
  intros (bl & ls & a & t & b & h & P & C & SA & ST & _ & X & Hh & ->)
    (bl' & ls' & a' & t' & b' & h' & P' & C' & SA' & ST' & _ & X' & Hh' & ->).
  rewrite (HeightOf_fun _ _ _ _ Hh' Hh). f_equal.
  assert (Q : a' = a /\ t' = t); [|destruct Q as [-> ->]; exact (place_y_fun _ _ _ _ _ _ _ _ X X')].
  apply Picked_app in P as (g1 & g2 & -> & P1 & P2), P' as (g1' & g2' & -> & P1' & P2').
  apply Picked_app in P2' as (gw & g3 & -> & Pw & P3). rewrite (Picked_fun _ _ _ _ P1' P1), (Picked_fun _ _ _ _ P3 P2) in *.
  destruct (jp_dec (s_jp s) (s_jp s0)) as [J|J].
  - assert (gw = w) as ->.
    { apply (Picked_fun _ _ _ _ Pw), picked_all. intros u Iu. destruct (HW u Iu) as (A & _). unfold SameBlock. congruence. }
    assert (Hb : forall u, In u g1 -> 0 <= s_line u).
    { intros u Iu. apply (Picked_in _ _ _ _ P1) in Iu as [Iu _]. apply in_split in Iu as (k & k' & E). apply (HK k u k' E). }
    destruct (counted_total g1 Hb) as (ls1 & C1).
    assert (EB : forall u, SameBlock s u <-> SameBlock s0 u) by (intros u; unfold SameBlock; rewrite J; reflexivity).
    assert (BL : BlockLines l s0 ls1).
    { pose proof C1 as C2. rewrite (Picked_fun _ _ _ _ P1 (block_picked l s)) in C2.
      pose proof (counted_block l s ls1 HK C2) as [B1 B2]. split.
      - intros n g E. destruct (B1 n g E) as [Ng Pg]. split; auto. apply (Picked_iff _ (OnLine s (Z.of_nat n))); auto.
        intros u. unfold OnLine. rewrite EB. reflexivity.
      - intros u Iu SB. apply B2; auto. now apply EB. }
    destruct (last_line l w s0 I0 HW HL ls1 BL) as (init & g & -> & I1 & Len).
    destruct (put_counted w s0 HW init g g1 C1 I1 Len g2) as (x1 & x2 & Q1 & Q2 & F).
    { intros u Iu. apply (Picked_in _ _ _ _ P2) in Iu as [Iu _]. auto. }
    rewrite (counted_fun _ _ C _ Q1), (counted_fun _ _ C' _ Q2) in *.
    split.
    + apply (StackHeight_fun d _ _ _ SA'). apply (put_stack d w s0 HW _ _ SA). now apply put_firstn.
    + apply (StackHeight_fun d _ _ _ ST'). exact (put_stack d w s0 HW _ _ ST _ F).
  - assert (gw = []) as ->.
    { destruct gw as [|u gw]; auto. destruct (proj1 (Picked_in _ _ _ u Pw) (or_introl eq_refl)) as [Iu U].
      unfold SameBlock in U. destruct (HW u Iu) as (A & _). congruence. }
    cbn [app] in *. rewrite (counted_fun _ _ C' _ C) in *.
    split; [exact (StackHeight_fun d _ _ _ SA' SA)|exact (StackHeight_fun d _ _ _ ST' ST)].
Qed.
End Places.

(** ** Pages *)

Lemma texts_within d c vs ws v0 r0 r r' q q' : ends_run v0 -> Orderly d (pl_earlier c ++ pl_upto c) (vs ++ v0 :: r0) ->
  jl_of d ((pl_earlier c ++ pl_upto c) ++ vs) = JlLeft -> (exists a v, vs = a ++ [v] /\ is_text v) -> Forall adds_beside ws ->
  fg_of d ((pl_earlier c ++ pl_upto c) ++ vs ++ ws) = fg_of d ((pl_earlier c ++ pl_upto c) ++ vs) ->
  in_force says_spacing None ((pl_earlier c ++ pl_upto c) ++ vs ++ ws) = in_force says_spacing None ((pl_earlier c ++ pl_upto c) ++ vs) ->
  SameImage r r' -> TextsShown d c (vs ++ v0 :: r0) r q -> TextsShown d c (vs ++ ws ++ v0 :: r0) r' q' ->
  Over (fun k => exists t, In t (texts d c vs ws) /\ k = foreground_rgb (rs_ctx (span_state t))) q q'.
Proof.
  intros H0 HO HJ HV HW HF HS S T T'.
  pose proof (orderly_front d _ _ _ HO) as HO1. pose proof (orderly_inv d c vs HO1) as IV.
  destruct (orderly d c _ HO1) as [_ K1], (orderly d c _ HO) as [_ K2].
  destruct (orderly d c _ (orderly_beside d _ vs ws HO1 HW)) as [N2 _].
  pose proof (away_all d c vs ws HV HF HS v0 r0 H0 HO) as AW.
  destruct HV as (a & v & EV & HV).
  destruct (beside_alike d c a v ws HV HW) as (s0 & I0 & J0 & P0 & L0 & HM). rewrite <- EV in *.
  apply ts_at in T, T'. rewrite !texts_app in *. cbn [app] in *.
  rewrite (within_texts d c vs ws ltac:(eauto) HW HF HS v0 r0 H0) in T'.
  set (l := texts d c [] vs) in *. set (w := texts d c vs ws) in *. set (m := texts d c vs (v0 :: r0)) in *.
  assert (HM0 : forall t, In t m -> 0 <= s_line t).
  { intros t It. apply in_split in It as (x & y & E). rewrite E, app_assoc in K2. apply (K2 _ _ _ eq_refl). }
  assert (HL : forall s, In s l -> s_jp s = s_jp s0 -> s_line s <= s_line s0).
  { intros s I E. rewrite L0. rewrite P0 in E. exact (proj1 (iv_same d c vs IV s I E)). }
  assert (HA : forall t, In t w -> Alike s0 t) by (intros t It; apply (HM t It)).
  assert (NM : forall s t, SameRun s s0 -> In t m -> ~ SameRun s t).
  { intros s t (R1 & R2 & R3) It (Q1 & Q2 & Q3). apply (AW t It). unfold RunHere. splits; congruence. }
  assert (NW : forall s t, ~ SameRun s s0 -> In t w -> ~ SameRun s t).
  { intros s t N It (Q1 & Q2 & Q3). apply N. destruct (HM t It) as ((A1 & A2 & _) & A3). unfold SameRun. splits; congruence. }
  assert (YY : forall s x y, AtY d (l ++ m) s x -> AtY d (l ++ w ++ m) s y -> x = y).
  { intros s x y. apply (within_y d l w m s0); auto. }
  apply drawn_app in T as (p1 & D1 & D2). apply drawn_app in T' as (p1' & D1' & D2'). apply drawn_app in D2' as (p2' & D2' & D3').
  assert (SI : SameImage p1 p1').
  { apply (drawn_places d (l ++ m) (l ++ w ++ m) l r p1 D1) with (p' := r'); auto; [|intros s x y _; apply YY].
    intros s x y Is X Y. destruct (run_dec s s0) as [R|R]; [|exact (at_x_insert d l w m s x y (fun t => NW s t R) X Y)].
    apply at_x_drop in X; [|intros t; exact (NM s t R)]. rewrite app_assoc in Y. apply at_x_drop in Y; [|intros t; exact (NM s t R)].
    apply (beside_x d l w s0) with (s := s); auto; [intros t It; apply (HM t It)|congruence]. }
  refine (over_drawn d (fun s => s) _ _ _ _ _ _ _ _ _ D2 _ _ p2' q' _ _); auto.
  - intros s x y Is X Y. refine (at_x_insert d l w m s x y (fun t => NW s t _) X Y). intros R.
    exact (NM s s R Is (SameRun_refl s)).
  - intros s x y _. apply YY.
  - refine (over_added d _ _ _ _ _ _ D2' p1 SI). intros s I. eauto.
  - rewrite map_id. exact D3'.
Qed.

Lemma goes_still v : goes_on v -> still v. Proof. destruct v; cbn; auto. Qed.

Lemma longer_within md d ms ms' pgs fr vs ws ys ps ps' : Built d -> (md = Release -> ~ Wraps d ms /\ ~ Wraps d ms') ->
  HasPage ms pgs (fr ++ vs ++ ys) -> HasPage ms' pgs (fr ++ vs ++ ws ++ ys) -> TextWithin d (List.concat pgs) fr vs ws ys ->
  Yields md d ms (map Ok ps) -> Yields md d ms' (map Ok ps') ->
  GrownAt (shown_for d [] pgs) (fun _ _ k => exists t, AddedColor d (List.concat pgs) fr vs ws t k) ps ps'.
Proof.
  intros HB HW H H' (HF & HT & HO & HJ & HV & HA & HC & HS & (v0 & r0 & E & HE) & HY) Y Y'.
  pose proof (Forall_impl _ goes_still HY) as SY.
  apply (grown_both md d ms ms' pgs fr vs ys (ws ++ ys)); auto.
  - apply Forall_app. split; [|exact SY]. exact (Forall_impl _ adds_still (beside_adds ws HA)).
  - intros r r' q q' SI T T'. rewrite app_assoc in HJ. rewrite !(app_assoc (List.concat pgs)) in HC, HS. rewrite E in *.
    exact (texts_within d (place_in d (List.concat pgs) fr vs) vs ws v0 r0 r r' q q' HE HO HJ HV HA HC HS SI T T').
Qed.
