(** Proofs for C88. *)

From Coq Require Import ZifyBool ZifyNat Lia.
From Verif Require Import Base Str Multi Color Raster Font Graphic Config Sign Render
  Spec_Multi Spec_Color Spec_Font Spec_Graphic Spec_Sign Spec_Render Spec_Layout Spec_Draw Spec_Page Spec_Safe Spec_Fail Spec_Below Spec_Beside Spec_Apart Spec_Longer Spec_Above
  Proofs_Str Proofs_Norm Proofs_Font Proofs_Graphic Proofs_Sign Proofs_Render Proofs_Pages Proofs_Horiz Proofs_Vert Proofs_Layout
  Proofs_Place Proofs_Draw Proofs_Page Proofs_Orderly Proofs_Modes Proofs_Safe Proofs_Text Proofs_Fail Proofs_Verdict Proofs_First Proofs_Unique Proofs_Below Proofs_Beside Proofs_Longer.
Open Scope list_scope.

(** ** Texts some lines further down *)

Definition shift_state (k : Z) (r : RenderState) : RenderState := set_line r (rs_line r + k).
Definition shift (k : Z) (s : Span) : Span :=
  match s with SpText st t => SpText (shift_state k st) t | SpHex st t => SpHex (shift_state k st) t end.

Fixpoint newlines (vs : list Value) : Z :=
  match vs with
  | [] => 0
  | VNewLine _ :: r => 1 + newlines r
  | _ :: r => newlines r
  end.

Lemma newlines_nonneg vs : 0 <= newlines vs.
Proof. induction vs as [|v vs IH]; cbn [newlines]; [lia|]. destruct v; lia. Qed.

Lemma newlines_app a b : newlines (a ++ b) = newlines a + newlines b.
Proof. induction a as [|v a IH]; cbn [app newlines]; [lia|]. destruct v; lia. Qed.

Lemma line_added d y : Forall adds_text y -> forall past n, line_at d past n y = n + newlines y.
Proof.
  induction 1 as [|v y V _ IH]; intros past n; cbn [line_at newlines]; [lia|]. rewrite IH.
  destruct v; try contradiction; cbn [changes_jp says_jp]; lia.
Qed.

Lemma line_app d a : forall past n b, line_at d past n (a ++ b) = line_at d (past ++ a) (line_at d past n a) b.
Proof.
  induction a as [|v a IH]; intros past n b; cbn [app line_at]; [now rewrite app_nil_r|]. rewrite IH, <- app_assoc. reflexivity.
Qed.

Lemma text_app d a : forall past n b, text_at d past n (a ++ b) = text_at d (past ++ a) (text_at d past n a) b.
Proof.
  induction a as [|v a IH]; intros past n b; cbn [app text_at]; [now rewrite app_nil_r|]. rewrite IH, <- app_assoc. reflexivity.
Qed.

Lemma text_added d y : Forall adds_text y -> forall past past' n, text_at d past n y = text_at d past' n y.
Proof.
  induction 1 as [|v y V _ IH]; intros past past' n; cbn [text_at]; [reflexivity|].
  destruct v; try contradiction; unfold changes_jp; cbn; apply IH.
Qed.

Lemma sets_line d bs : Forall sets_only bs -> forall past, line_at d past 0 bs = 0 /\ text_at d past 0 bs = 0.
Proof.
  induction 1 as [|v bs V _ IH]; intros past; cbn [line_at text_at]; [auto|].
  destruct v; try contradiction; try (destruct (changes_jp d past _)); apply IH.
Qed.

Lemma sets_texts d c bs : Forall sets_only bs -> forall done, texts d c done bs = [].
Proof. induction 1 as [|v bs V _ IH]; intros done; cbn [texts]; [auto|]. rewrite IH. destruct v; try contradiction; reflexivity. Qed.

Lemma sets_blank bs : Forall sets_only bs -> blank_line bs = true.
Proof. intros H. apply force_none. eapply Forall_impl; [|exact H]. intros v V. destruct v; try contradiction; reflexivity. Qed.

Lemma line_adds ws : Forall line_text ws -> Forall adds_text ws.
Proof. apply Forall_impl. intros v; destruct v; cbn; auto. Qed.

Section Texts.
Variables (d : Dms) (c : Place) (bs r : list Value).
Notation past := (pl_earlier c ++ pl_upto c).
Notation ws := (r ++ [VNewLine None]).
Notation k := (newlines ws).
Hypothesis HB : Forall sets_only bs.
Hypothesis HW : Forall line_text ws.
Hypothesis HL : in_force says_lead None (pl_upto c ++ bs) = None.

Lemma skip_force {A} (f : Value -> option A) x p y : (forall v, line_text v -> f v = None) ->
  in_force f x (p ++ bs ++ ws ++ y) = in_force f x (p ++ bs ++ y).
Proof.
  intros H. rewrite (force_app f p), (force_app f bs), (force_app f ws).
  rewrite (force_none f ws); [|eapply Forall_impl; [exact H|exact HW]]. rewrite (force_app f p), (force_app f bs). reflexivity.
Qed.

Lemma shift_setting y : Forall adds_text y -> setting d c (bs ++ ws ++ y) = shift_state k (setting d c (bs ++ y)).
Proof.
  intros HY. unfold shift_state, set_line, setting.
  cbn [rs_ctx rs_on_time rs_off_time rs_rect rs_jp rs_jl rs_font rs_font_vid rs_line_spacing rs_char_spacing rs_line rs_span].
  unfold page_colors, fg_of, jp_of, jl_of, font_of.
  rewrite !(skip_force _ _ past y) by (intros v; destruct v; cbn; intros []; reflexivity).
  f_equal.
  - rewrite (app_assoc (pl_upto c)), (force_app says_lead), HL, (force_app says_lead), (force_app says_lead).
    rewrite (app_assoc (pl_upto c)), (force_app says_lead), HL. reflexivity.
  - rewrite !(line_app d bs). rewrite (proj1 (sets_line d bs HB past)).
    rewrite !line_added; auto; [|apply Forall_app; split; auto; apply line_adds; auto].
    rewrite newlines_app. lia.
  - rewrite !(text_app d bs), (proj2 (sets_line d bs HB past)), (text_app d ws), (text_app d r). cbn [text_at].
    apply text_added; auto.
Qed.

Lemma skip_blank y : blank_line (bs ++ ws ++ y) = blank_line (bs ++ y).
Proof.
  unfold blank_line. rewrite (force_app _ bs), (force_app _ ws), (force_app _ r), (force_app _ bs).
  fold blank_line. fold (blank_line bs). rewrite (sets_blank bs HB). cbn. reflexivity.
Qed.

Lemma shift_texts ys : Forall adds_text ys -> forall y, Forall adds_text y ->
  texts d c (bs ++ ws ++ y) ys = map (shift k) (texts d c (bs ++ y) ys).
Proof.
  induction 1 as [|v ys V _ IH]; intros y HY; cbn [texts]; [reflexivity|].
  rewrite map_app, skip_blank, shift_setting by auto.
  replace ((bs ++ ws ++ y) ++ [v]) with (bs ++ ws ++ y ++ [v]) by now rewrite !app_assoc.
  rewrite IH by (apply Forall_app; split; auto). rewrite <- (app_assoc bs y). f_equal.
  destruct v; try contradiction; try reflexivity. destruct (blank_line (bs ++ y)); reflexivity.
Qed.

(** ** Lines *)

Lemma lines_added w : Forall line_text w -> exists ls, Counted (texts d c bs w) ls
  /\ Z.of_nat (List.length ls) = newlines w + (if blank_line (bs ++ w) then 0 else 1).
Proof.
  induction w as [|v w IH] using rev_ind; intros H.
  - exists []. split; [constructor|]. rewrite app_nil_r, (sets_blank bs HB). reflexivity.
  - apply Forall_app in H as [Hw Hv]. inversion Hv as [|? ? V _]; subst. destruct (IH Hw) as (ls & C & L).
    rewrite texts_app, newlines_app, app_assoc. unfold blank_line at 1. rewrite Proofs_Page.in_force_snoc. fold (blank_line (bs ++ w)).
    assert (E : forall s, span_state s = setting d c (bs ++ w) -> s_line s = newlines w).
    { intros s Es. unfold s_line. rewrite Es. cbn [setting rs_line]. rewrite line_app, (proj1 (sets_line d bs HB past)).
      rewrite line_added by (apply line_adds; auto). lia. }
    assert (T : forall s, span_state s = setting d c (bs ++ w) -> exists ls', Counted (texts d c bs w ++ [s]) ls'
                /\ Z.of_nat (List.length ls') = newlines w + 1).
    { intros s Es. destruct (blank_line (bs ++ w)) eqn:B.
      - exists (ls ++ [[s]]). split; [apply Ct_new; auto; rewrite (E s Es); lia|]. rewrite app_length. cbn [List.length]. lia.
      - destruct ls as [|x ls _] using rev_ind; [cbn in L; pose proof (newlines_nonneg w); lia|].
        rewrite app_length in L. cbn [List.length] in L.
        exists (ls ++ [x ++ [s]]). split; [apply Ct_old; auto; rewrite (E s Es); lia|]. rewrite app_length. cbn [List.length]. lia. }
    destruct v; try contradiction; cbn [texts newlines app].
    all: try (match goal with |- context [_ ++ [?s]] => destruct (T s eq_refl) as (ls' & C' & L') end;
              exists ls'; split; [exact C'|lia]).
    destruct (blank_line (bs ++ w)) eqn:B.
    + destruct (T (SpText (setting d c (bs ++ w)) []) eq_refl) as (ls' & C' & L'). exists ls'. split; [exact C'|lia].
    + exists ls. rewrite app_nil_r. split; [exact C|lia].
Qed.
End Texts.

Lemma counted_shift k lsA A B ls : Counted A lsA -> Z.of_nat (List.length lsA) = k -> Counted B ls ->
  Counted (A ++ map (shift k) B) (lsA ++ map (map (shift k)) ls).
Proof.
  intros CA LA. induction 1 as [|l ls s C IH L|l a x b s C IH L].
  - now rewrite !app_nil_r.
  - rewrite !map_app, !app_assoc. cbn [map]. apply Ct_new; [exact IH|]. rewrite app_length, map_length.
    replace (s_line (shift k s)) with (s_line s + k) by (destruct s; reflexivity). lia.
  - rewrite !map_app in *. cbn [map] in *. rewrite map_app, !app_assoc. cbn [map]. rewrite app_assoc in IH. apply Ct_old; [exact IH|].
    rewrite app_length, map_length. replace (s_line (shift k s)) with (s_line s + k) by (destruct s; reflexivity). lia.
Qed.

(** ** Heights *)

Section Heights.
Variables (d : Dms) (k : Z).
Notation sh := (shift k).

Lemma sh_font s f : FontOf (d_fonts d) (sh s) f <-> FontOf (d_fonts d) s f.
Proof. destruct s; reflexivity. Qed.
Lemma sh_height s h : HeightOf (d_fonts d) (sh s) h <-> HeightOf (d_fonts d) s h.
Proof. destruct s; reflexivity. Qed.
Lemma sh_lead s h : LeadOf (d_fonts d) (sh s) h <-> LeadOf (d_fonts d) s h.
Proof. destruct s; reflexivity. Qed.
Lemma sh_line_spacing s : rs_line_spacing (span_state (sh s)) = rs_line_spacing (span_state s).
Proof. destruct s; reflexivity. Qed.

Lemma sh_greatest (R : Span -> Z -> Prop) l m : (forall s v, R (sh s) v <-> R s v) -> Greatest R l m -> Greatest R (map sh l) m.
Proof.
  intros H ((x & I & X) & L). split.
  - exists (sh x). split; [now apply in_map|now apply H].
  - intros y v Iy Y. apply in_map_iff in Iy as (z & <- & Iz). apply (L z v Iz). now apply H.
Qed.

Lemma sh_asked l o : Asked l o -> Asked (map sh l) o.
Proof.
  intros [l' N|l' a s b n -> N S].
  - apply As_none. intros t I. apply in_map_iff in I as (z & <- & Iz). rewrite sh_line_spacing. auto.
  - rewrite map_app. cbn [map]. apply (As_some _ (map sh a) (sh s) (map sh b)); auto.
    + intros t I. apply in_map_iff in I as (z & <- & Iz). rewrite sh_line_spacing. auto.
    + now rewrite sh_line_spacing.
Qed.

Lemma sh_stack ls v : StackHeight d ls v -> StackHeight d (map (map sh) ls) v.
Proof.
  induction 1 as [|l h G|r p l v g h S IH G K].
  - constructor.
  - apply Sk_one, sh_greatest; auto. intros; apply sh_height.
  - rewrite map_app in *. cbn [map] in *. apply Sk_snoc; auto; [|apply sh_greatest; auto; intros; apply sh_height].
    destruct G as [C|n C A|a b C A G1 G2]; [now apply Lg_cells|apply Lg_set; auto; now apply sh_asked|].
    apply Lg_avg; auto; [now apply sh_asked|apply sh_greatest; auto; intros; apply sh_lead..].
Qed.

Lemma stack_snoc z l v : z <> [] -> StackHeight d (z ++ [l]) v ->
  exists r p u g h, z = r ++ [p] /\ StackHeight d z u /\ LineGap d p l g /\ Greatest (HeightOf (d_fonts d)) l h /\ v = u + g + h.
Proof.
  intros N H. remember (z ++ [l]) as y eqn:E. destruct H as [|l' h G|r p l' u g h S G K].
  - destruct z; discriminate E.
  - destruct z as [|? [|? ?]]; [congruence|discriminate E..].
  - change (r ++ [p; l']) with (r ++ [p] ++ [l']) in E. rewrite app_assoc in E. apply app_inj_tail in E as [<- ->].
    exists r, p, u, g, h. auto.
Qed.

Lemma gap_fun p l g h : LineGap d p l g -> LineGap d p l h -> g = h.
Proof.
  intros [C|n C A|a b C A G1 G2] [C'|n' C' A'|a' b' C' A' G1' G2']; try congruence; try (exfalso; contradiction);
    try (pose proof (Asked_fun _ _ _ A A'); congruence).
  rewrite (Greatest_fun _ _ _ _ G1 G1'), (Greatest_fun _ _ _ _ G2 G2'). reflexivity.
Qed.

Lemma stack_rest x y1 : y1 <> [] -> forall y2 a t a' t',
  StackHeight d y1 a -> StackHeight d (y1 ++ y2) t -> StackHeight d (x ++ y1) a' -> StackHeight d (x ++ y1 ++ y2) t' ->
  t' - a' = t - a.
Proof.
  intros N. induction y2 as [|l y2 IH] using rev_ind; intros a t a' t' A T A' T'.
  - rewrite app_nil_r in T, T'. rewrite (StackHeight_fun d _ _ _ T A), (StackHeight_fun d _ _ _ T' A'). lia.
  - rewrite app_assoc in T. rewrite !app_assoc in T'.
    apply stack_snoc in T as (r & p & u & g & h & E & S & G & H & ->); [|destruct y1; [congruence|discriminate]].
    apply stack_snoc in T' as (r' & p' & u' & g' & h' & E' & S' & G' & H' & ->).
    2:{ destruct x, y1; try congruence; discriminate. }
    assert (p' = p) as ->.
    { rewrite <- app_assoc, E, app_assoc in E'. apply app_inj_tail in E' as [_ E']. congruence. }
    rewrite <- app_assoc in S'. specialize (IH a u a' u' A S A' S').
    rewrite (gap_fun _ _ _ _ G' G), (Greatest_fun _ _ _ _ H' H). lia.
Qed.

(** ** Places *)

Lemma sh_width s w : SpanWidth (d_fonts d) (sh s) w <-> SpanWidth (d_fonts d) s w.
Proof.
  assert (E : forall f cs, SetWith (d_fonts d) (sh s) f cs <-> SetWith (d_fonts d) s f cs).
  { intros f cs. unfold SetWith. rewrite sh_font.
    assert (S : forall t, ShowsText (sh s) t <-> ShowsText s t).
    { intros t. destruct s; cbn [shift]; split; inversion 1; subst; constructor; auto. }
    split; intros (F & t & S1 & S2); (split; [exact F|]); exists t; (split; [now apply S|exact S2]). }
  assert (P : forall f, spacing_in (sh s) f = spacing_in s f) by (intros f; destruct s; reflexivity).
  split; intros (f & cs & H & ->); exists f, cs; (split; [now apply E|]); now rewrite P.
Qed.

Lemma sh_set s f cs : SetWith (d_fonts d) (sh s) f cs -> SetWith (d_fonts d) s f cs.
Proof.
  intros (F & t & S1 & S2). split; [now apply sh_font|]. exists t. split; auto.
  destruct s; cbn [shift] in S1; inversion S1; subst; constructor; auto.
Qed.

Lemma sh_gap s t g : Gap (d_fonts d) s t g -> Gap (d_fonts d) (sh s) (sh t) g.
Proof.
  intros [n C|f h C F H].
  - apply Gap_set. destruct t; exact C.
  - replace (spacing_in s f) with (spacing_in (sh s) f) by (destruct s; reflexivity).
    replace (spacing_in t h) with (spacing_in (sh t) h) by (destruct t; reflexivity).
    apply Gap_avg; [destruct t; exact C|now apply sh_font..].
Qed.

Lemma sh_run run w : RunWidth (d_fonts d) run w -> RunWidth (d_fonts d) (map sh run) w.
Proof.
  induction 1 as [s w W|s t r w g v W G R IH]; cbn [map] in *.
  - apply Rw_one. now apply sh_width.
  - apply Rw_cons; auto; [now apply sh_width|now apply sh_gap].
Qed.

Lemma sh_number s : s_number (sh s) = s_number s. Proof. destruct s; reflexivity. Qed.

Lemma sh_offset n p run b : RunOffset (d_fonts d) n p run b -> RunOffset (d_fonts d) n (option_map sh p) (map sh run) b.
Proof.
  induction 1 as [p|t r w v W R IH|p t r g w v G W R IH]; cbn [map option_map] in *.
  - constructor.
  - rewrite <- (sh_number t). apply Ro_first; auto. now apply sh_width.
  - rewrite <- (sh_number t). apply Ro_next; auto; [now apply sh_gap|now apply sh_width].
Qed.

Lemma sh_samerun s t : SameRun (sh s) (sh t) <-> SameRun s t.
Proof.
  unfold SameRun. assert (E : forall u, s_jp (sh u) = s_jp u /\ s_line (sh u) = s_line u + k /\ s_jl (sh u) = s_jl u) by (intros u; destruct u; splits; reflexivity).
  destruct (E s) as (-> & -> & ->), (E t) as (-> & -> & ->). intuition lia.
Qed.

Lemma sh_picked (P Q : Span -> Prop) l g : (forall s, Q (sh s) <-> P s) -> Picked P l g -> Picked Q (map sh l) (map sh g).
Proof. intros H. induction 1 as [|x l g X K IH|x l g X K IH]; cbn [map]; constructor; auto; firstorder. Qed.

Lemma picked_after {A} (P : A -> Prop) a b g : (forall x, In x a -> ~ P x) -> Picked P (a ++ b) g -> Picked P b g.
Proof.
  intros N H. apply Picked_app in H as (g1 & g2 & -> & H1 & H2). destruct g1 as [|x g1]; auto.
  exfalso. destruct (proj1 (Picked_in _ _ _ x H1) (or_introl eq_refl)) as [I X]. exact (N x I X).
Qed.

Lemma above_x A B s x y : (forall t, In t A -> s_line t < k) -> 0 <= s_line s ->
  AtX d B s x -> AtX d (A ++ map sh B) (sh s) y -> x = y.
Proof.
  intros HA Hs (run & b & t & P & O & W & _ & X) (run' & b' & t' & P' & O' & W' & _ & X').
  apply picked_after in P'.
  2:{ intros u Iu (_ & R & _). specialize (HA u Iu). replace (s_line (sh s)) with (s_line s + k) in R by (destruct s; reflexivity). lia. }
  rewrite (Picked_fun _ _ _ _ P' (sh_picked (SameRun s) (SameRun (sh s)) B run (fun u => sh_samerun s u) P)) in *.
  rewrite sh_number in O'. rewrite (RunOffset_fun d _ _ _ _ _ O' (sh_offset _ None _ _ O)) in X'.
  rewrite (RunWidth_fun _ _ _ _ W' (sh_run _ _ W)) in X'. destruct s; exact (place_x_fun _ _ _ _ _ _ _ _ X X').
Qed.

Lemma above_y A B lsA s x y : (forall t, In t A -> s_jp t = JpBottom) -> (forall t, In t B -> s_jp t = JpBottom) ->
  In s B -> 0 <= s_line s -> Counted A lsA -> Z.of_nat (List.length lsA) = k ->
  AtY d B s x -> AtY d (A ++ map sh B) (sh s) y -> x = y.
Proof.
  intros JA JB I Hs CA LA (bl & ls & a & t & b & h & P & C & SA & ST & _ & X & Hh & ->)
    (bl' & ls' & a' & t' & b' & h' & P' & C' & SA' & ST' & _ & X' & Hh' & ->).
  assert (bl = B) as ->.
  { apply (Picked_fun _ _ _ _ P), picked_all. intros u Iu. unfold SameBlock. rewrite (JB u Iu), (JB s I). reflexivity. }
  assert (JS : s_jp (sh s) = JpBottom) by (destruct s; exact (JB _ I)).
  assert (bl' = A ++ map sh B) as ->.
  { apply (Picked_fun _ _ _ _ P'), picked_all. intros u Iu. unfold SameBlock. rewrite JS. apply in_app_or in Iu as [Iu|Iu]; [auto|].
    apply in_map_iff in Iu as (z & <- & Iz). specialize (JB z Iz). destruct z; exact JB. }
  rewrite (counted_fun _ _ C' _ (counted_shift k lsA A B ls CA LA C)) in *.
  replace (s_line (sh s)) with (s_line s + k) in SA' by (destruct s; reflexivity).
  set (n := Z.to_nat (s_line s + 1)) in *.
  replace (Z.to_nat (s_line s + k + 1)) with (List.length lsA + n)%nat in SA' by lia.
  rewrite firstn_app_2, firstn_map in SA'.
  rewrite <- (firstn_skipn n ls) in ST, ST' at 1. rewrite map_app in ST'.
  assert (N : firstn n ls <> []).
  { destruct ls as [|l0 ls]; [inversion C as [E| |]; subst; try (now destruct I)|].
    - destruct ls; discriminate.
    - destruct a0; discriminate.
    - replace n with (S (pred n)) by lia. discriminate. }
  pose proof (sh_stack _ _ ST) as ST1. rewrite map_app in ST1.
  assert (D : t' - a' = t - a).
  { apply (stack_rest lsA (map (map sh) (firstn n ls)) ltac:(destruct (firstn n ls); [congruence|discriminate])
             (map (map sh) (skipn n ls))); auto. apply sh_stack; auto. }
  rewrite JS in X'. rewrite (JB s I) in X. cbn in X, X'.
  assert (ER : s_rect (sh s) = s_rect s) by (destruct s; reflexivity). rewrite ER in X'.
  rewrite (HeightOf_fun _ _ _ _ (proj1 (sh_height s h') Hh') Hh). lia.
Qed.
End Heights.

(** ** Drawing *)

Definition Over (C : rgb -> Prop) (p p' : Raster rgb) : Prop :=
  r_width p' = r_width p /\ r_height p' = r_height p
  /\ forall x y, on_raster p x y -> r_pixel p' x y = r_pixel p x y \/ C (r_pixel p' x y).

Lemma over_same C p p' : SameImage p p' -> Over C p p'.
Proof. intros (W & H & P). split; [exact W|]. split; [exact H|]. auto. Qed.

Lemma over_added d all n (C : rgb -> Prop) : (forall s, In s n -> C (foreground_rgb (rs_ctx (span_state s)))) ->
  forall p q, DrawnAt d all n p q -> forall r, SameImage r p -> Over C r q.
Proof.
  intros HC p q D r (W & H & P). destruct (painted_draw d all n p q D) as (W' & H' & P'). unfold Over. splits; try congruence.
  intros x y O. destruct (P' x y) as [E|(t & b & I & _ & _ & E)]; [left; rewrite E; auto|right; rewrite E; auto].
Qed.

Lemma over_drawn d (move : Span -> Span) (C : rgb -> Prop) all all' :
  (forall s f cs, SetWith (d_fonts d) (move s) f cs -> SetWith (d_fonts d) s f cs) ->
  (forall s f, spacing_in (move s) f = spacing_in s f) -> (forall s, rs_ctx (span_state (move s)) = rs_ctx (span_state s)) ->
  forall todo p q, DrawnAt d all todo p q ->
  (forall s x y, In s todo -> AtX d all s x -> AtX d all' (move s) y -> x = y) ->
  (forall s x y, In s todo -> AtY d all s x -> AtY d all' (move s) y -> x = y) ->
  forall p' q', Over C p p' -> DrawnAt d all' (map move todo) p' q' -> Over C q q'.
Proof.
  intros M1 M2 M3. induction 1 as [p|s r p q q' f cs x y SW X Y P D IH]; intros HX HY p' qq S K; cbn [map] in K.
  - inversion K; subst. exact S.
  - inversion K as [|? ? ? q1 ? f' cs' x' y' SW' X' Y' P' D']; subst.
    apply (IH (fun t a b I => HX t a b (or_intror I)) (fun t a b I => HY t a b (or_intror I)) q1 qq); auto.
    apply M1 in SW'. destruct (set_with_fun _ _ _ _ _ _ SW SW') as [<- <-].
    rewrite <- (HX s x x' (or_introl eq_refl) X X'), <- (HY s y y' (or_introl eq_refl) Y Y') in P'.
    rewrite M2, M3 in P'.
    destruct P as (P1 & P2 & P), P' as (P1' & P2' & P'), S as (S1 & S2 & S). unfold Over. splits; try congruence.
    intros a b O. assert (O' : on_raster p a b) by (unfold on_raster in *; rewrite P1, P2 in O; exact O).
    destruct (P a b) as [I1 I2], (P' a b) as [J1 J2]. specialize (S a b O').
    set (col := foreground_rgb (rs_ctx (span_state s))) in *.
    destruct (rgb_dec (r_pixel q a b) col) as [E|E].
    + destruct (rgb_dec (r_pixel q1 a b) col) as [E'|E']; [left; congruence|].
      rewrite I2, J2 by (intros N; apply E', J1, N). exact S.
    + rewrite I2, J2 by (intros N; apply E, I1, N). exact S.
Qed.

(** ** Pages *)

Lemma upper_line d c ws : Forall adds_text ws -> forall vs t, In t (texts d c vs ws) ->
  s_line t <= line_at d (pl_earlier c ++ pl_upto c) 0 vs + newlines ws.
Proof.
  induction 1 as [|v ws V _ IH]; intros vs t I; [destruct I|]. cbn [texts] in I. apply in_app_or in I as [I|I].
  - assert (E : s_line t = line_at d (pl_earlier c ++ pl_upto c) 0 vs).
    { destruct v; try contradiction; try (destruct (blank_line vs)); try contradiction; destruct I as [<-|[]]; reflexivity. }
    pose proof (newlines_nonneg (v :: ws)). lia.
  - specialize (IH _ _ I). rewrite line_at_snoc in IH.
    destruct v; try contradiction; cbn [newlines changes_jp says_jp] in *; lia.
Qed.

Lemma texts_above d c bs ws ys r r' q q' : Forall sets_only bs -> jp_of d ((pl_earlier c ++ pl_upto c) ++ bs) = JpBottom ->
  in_force says_lead None (pl_upto c ++ bs) = None -> (exists l, ws = l ++ [VNewLine None]) -> Forall line_text ws -> Forall adds_text ys ->
  SameImage r r' -> TextsShown d c (bs ++ ys) r q -> TextsShown d c (bs ++ ws ++ ys) r' q' ->
  Over (fun k => exists t, In t (texts d c bs ws) /\ k = foreground_rgb (rs_ctx (span_state t))) q q'.
Proof.
  intros HB HJ HL (l & ->) HW HY S T T'. apply ts_at in T, T'.
  rewrite texts_app, (sets_texts d c bs HB) in T. rewrite texts_app, (sets_texts d c bs HB) in T'. cbn [app] in T, T'.
  rewrite texts_app in T'. set (k := newlines (l ++ [VNewLine None])) in *.
  pose proof (shift_texts d c bs l HB HW HL ys HY [] (Forall_nil _)) as ES. rewrite !app_nil_r in ES. fold k in ES. rewrite ES in T'.
  destruct (lines_added d c bs HB _ HW) as (lsA & CA & LA).
  assert (BL : blank_line (bs ++ l ++ [VNewLine None]) = true).
  { unfold blank_line. rewrite app_assoc, Proofs_Page.in_force_snoc. reflexivity. }
  rewrite BL, Z.add_0_r in LA. fold k in LA.
  pose proof (proj1 (sets_line d bs HB (pl_earlier c ++ pl_upto c))) as L0.
  apply drawn_app in T' as (m & D1 & D2).
  assert (UA : forall t, In t (texts d c bs (l ++ [VNewLine None])) -> s_line t < k).
  { intros t I. rewrite texts_app in I. apply Forall_app in HW as [HW1 _].
    assert (EK : k = newlines l + 1) by (unfold k; rewrite newlines_app; reflexivity). apply in_app_or in I as [I|I].
    - apply upper_line in I; [lia|apply line_adds; auto].
    - cbn [texts] in I. destruct (blank_line (bs ++ l)); [|destruct I]. destruct I as [<-|[]].
      unfold s_line. cbn [span_state setting rs_line]. rewrite line_app, L0, line_added by (apply line_adds; auto). lia. }
  assert (JA : forall t, In t (texts d c bs (l ++ [VNewLine None])) -> s_jp t = JpBottom).
  { intros t I. apply added_texts in I as [E _]; [congruence|apply line_adds; auto]. }
  assert (JB : forall t, In t (texts d c bs ys) -> s_jp t = JpBottom /\ 0 <= s_line t).
  { intros t I. apply added_texts in I as [E L]; auto. split; [congruence|lia]. }
  refine (over_drawn d (shift k) _ _ _ _ _ _ _ _ _ T _ _ m q' _ D2);
    [intros s f cs; apply sh_set|intros s f; destruct s; reflexivity|intros s; destruct s; reflexivity| | |].
  - intros s x y I. apply above_x; auto. apply (JB s I).
  - intros s x y I. apply (above_y d k _ _ lsA); auto; [intros t It; apply (JB t It)|apply (JB s I)].
  - refine (over_added d _ _ _ _ _ _ D1 r S). intros s I. eauto.
Qed.

Lemma longer_above md d ms ms' pgs fr bs ws ys ps ps' : Built d -> (md = Release -> ~ Wraps d ms /\ ~ Wraps d ms') ->
  HasPage ms pgs (fr ++ bs ++ ys) -> HasPage ms' pgs (fr ++ bs ++ ws ++ ys) -> LinesAbove d (List.concat pgs) fr bs ws ys ->
  Yields md d ms (map Ok ps) -> Yields md d ms' (map Ok ps') ->
  GrownAt (shown_for d [] pgs) (fun _ _ k => exists t, AddedColor d (List.concat pgs) fr bs ws t k) ps ps'.
Proof.
  intros HB HW H H' (HF & HS & HJ & HL & HE & HA & HY) Y Y'.
  apply (grown_both md d ms ms' pgs fr bs ys (ws ++ ys)); auto.
  - intros r I. rewrite Forall_forall in HS. exact (HS _ I).
  - exact (Forall_impl _ adds_still HY).
  - apply Forall_app. split; [|exact (Forall_impl _ adds_still HY)]. exact (Forall_impl _ adds_still (line_adds ws HA)).
  - intros r r' q q' SI T T'. rewrite app_assoc in HJ.
    exact (texts_above d (place_in d (List.concat pgs) fr bs) bs ws ys r r' q q' HS HJ HL HE HA HY SI T T').
Qed.
