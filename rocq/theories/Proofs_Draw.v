(** Where each text is drawn, for any sequence of tags. *)

From Coq Require Import ZifyBool ZifyNat.
From Verif Require Import Base Str Multi Color Raster Font Graphic Config Sign Render
  Spec_Color Spec_Font Spec_Tfon Spec_Sign Spec_Render Spec_Layout Spec_Draw
  Proofs_Str Proofs_Color Proofs_Font Proofs_Glyph Proofs_Table Proofs_Tfon Proofs_Sign Proofs_Pages Proofs_Horiz Proofs_Vert Proofs_Layout Proofs_Place.
Open Scope list_scope.
Ltac Zify.zify_post_hook ::= Z.div_mod_to_equations.

Section Counts.
Variable d : Dms.
Hypothesis HF : table_fields (d_fonts d).
Local Notation fonts := (d_fonts d).

(** ** Counted lines *)

Lemma app_same {A} : forall a a' : list A, List.length a = List.length a' -> forall b b', a ++ b = a' ++ b' -> a = a' /\ b = b'.
Proof.
  induction a as [|x a IH]; intros [|y a'] L b b' E; cbn in *; try discriminate; auto.
  injection E as -> E. injection L as L. apply IH in E; auto. destruct E as [-> ->]. auto.
Qed.

Lemma collect_counted : forall todo dn cs ls out, (forall s, In s todo -> 0 <= s_line s) ->
  Counted dn cs -> Forall2 (LineRel fonts) cs ls -> collect_lines fonts todo ls = Ok out ->
  exists cs', Counted (dn ++ todo) cs' /\ Forall2 (LineRel fonts) cs' out.
Proof.
  induction todo as [|s r IH]; intros dn cs ls out HN HC HR H.
  - injection H as <-. exists cs. now rewrite app_nil_r.
  - apply collect_step in H. destruct H as (h & fs & H1 & H2 & H).
    pose proof (Forall2_len _ _ _ HR) as EL. pose proof (HN s (or_introl eq_refl)) as Hs.
    replace (dn ++ s :: r) with ((dn ++ [s]) ++ r) by (now rewrite <- app_assoc).
    assert (HN' : forall t, In t r -> 0 <= s_line t) by (intros; apply HN; cbn; auto).
    destruct (Z.leb_spec (Z.of_nat (List.length ls)) (s_line s)) as [L|L].
    + eapply (IH _ (cs ++ [[s]])); [exact HN'| | |exact H].
      * apply Ct_new; auto. lia.
      * apply Forall2_app; auto. constructor; [now apply LineRel_one|constructor].
    + destruct (nth_error cs (Z.to_nat (s_line s))) as [x|] eqn:Ex; [|apply nth_error_None in Ex; lia].
      apply nth_error_split in Ex. destruct Ex as (a & b & -> & La).
      eapply (IH _ (a ++ (x ++ [s]) :: b)); [exact HN'| | |exact H].
      * apply Ct_old; auto. lia.
      * apply Forall2_app_inv_l in HR. destruct HR as (la & lb & Ra & Rb & ->).
        inversion Rb as [|? y ? lb' Rx Rb']; subst.
        replace (combine_at (la ++ y :: lb') (Z.to_nat (s_line s)) (as_line s h fs))
          with (la ++ combine y (as_line s h fs) :: lb').
        { apply Forall2_app; auto. constructor; auto. now apply LineRel_snoc. }
        rewrite <- La, (Forall2_len _ _ _ Ra). clear. induction la as [|z la IH]; cbn; [reflexivity|]. now rewrite <- IH.
Qed.

Lemma counted_fun : forall l a, Counted l a -> forall b, Counted l b -> a = b.
Proof.
  intros l a H. induction H as [|l ls s H IH L|l a x y s H IH E]; intros b K.
  - inversion K as [|? ? ? ? ? E|? ? ? ? ? ? ? E]; auto; destruct l; discriminate.
  - inversion K as [E|l' ls' s' K' L' E|l' a' x' y' s' K' L' E].
    + destruct l; discriminate.
    + apply app_inj_tail in E as [-> ->]. apply IH in K'. now subst.
    + apply app_inj_tail in E as [-> ->]. apply IH in K'. subst ls. rewrite app_length in L. cbn [List.length] in L. lia.
  - inversion K as [E'|l' ls' s' K' L' E'|l' a' x' y' s' K' L' E'].
    + destruct l; discriminate.
    + apply app_inj_tail in E' as [-> ->]. apply IH in K'. subst ls'. rewrite app_length in L'. cbn [List.length] in L'. lia.
    + apply app_inj_tail in E' as [-> ->]. apply IH in K'.
      assert (LL : List.length a = List.length a') by lia.
      apply app_same in K'; auto. destruct K' as [-> K']. injection K' as -> ->. reflexivity.
Qed.

(** The lines of a block counted from the model. *)
Lemma block_counted all s ts : Forall span_fields all -> collect_lines fonts (block_of all s) [] = Ok ts ->
  exists ls, Picked (SameBlock s) all (block_of all s) /\ Counted (block_of all s) ls
    /\ Forall2 (LineRel fonts) ls ts /\ Forall tl_ok ts.
Proof.
  intros HS E. destruct (collect_counted (block_of all s) [] [] [] ts) as (ls & C & R); auto using Ct_nil.
  { intros t I. apply filter_In in I. destruct I as [I _]. rewrite Forall_forall in HS. apply HS in I.
    destruct I as (_ & _ & HL & _). unfold u8 in HL. lia. }
  exists ls. splits; auto.
  - apply (Picked_filter _ (fun t => matches_line (span_state s) (span_state t))); [|reflexivity].
    intros t. apply matches_line_iff.
  - eapply collect_ok; [exact HF|apply block_of_fields; exact HS|constructor|exact E].
Qed.
End Counts.

(** ** Lines as counted and as numbered *)

Lemma counted_lines l ls : Counted l ls -> BlockStacked l ->
  (forall n x, nth_error ls n = Some x -> x <> [] /\ x = line_of l n)
  /\ (forall t, In t l -> 0 <= s_line t < Z.of_nat (List.length ls)).
Proof.
  intros H. induction H as [|l ls s H IH L|l a x b s H IH E]; intros HB.
  - split; [intros [|n] x N; discriminate N|intros t []].
  - assert (HB' : BlockStacked l).
    { intros u t v Et. subst l. apply (HB u t (v ++ [s])). now rewrite <- app_assoc. }
    destruct (IH HB') as (H1 & H2). destruct (HB l s [] eq_refl) as (Hn & Hp).
    assert (E : s_line s = Z.of_nat (List.length ls)).
    { destruct Hp as [Hp|(t & I & Et)]; [lia|]. specialize (H2 t I). lia. }
    split.
    + intros n x N. rewrite line_of_snoc. destruct (Nat.eq_dec n (List.length ls)) as [->|Hd].
      * rewrite nth_error_app2, Nat.sub_diag in N by lia. injection N as <-. split; [discriminate|].
        rewrite line_of_none by (intros t I; apply H2 in I; lia).
        now replace (s_line s =? Z.of_nat (List.length ls)) with true by lia.
      * assert (n < List.length (ls ++ [[s]]))%nat as HL by (apply nth_error_Some; congruence).
        rewrite app_length in HL. cbn [List.length] in HL.
        rewrite nth_error_app1 in N by lia. replace (s_line s =? Z.of_nat n) with false by lia.
        rewrite app_nil_r. auto.
    + intros t I. rewrite app_length. cbn [List.length]. apply in_app_iff in I.
      destruct I as [I|[<-|[]]]; [apply H2 in I; lia|lia].
  - assert (HB' : BlockStacked l).
    { intros u t v Et. subst l. apply (HB u t (v ++ [s])). now rewrite <- app_assoc. }
    destruct (IH HB') as (H1 & H2). split.
    + intros n y N. rewrite line_of_snoc. destruct (Nat.eq_dec n (List.length a)) as [->|Hd].
      * rewrite nth_error_app2, Nat.sub_diag in N by lia. injection N as <-.
        split; [intros C; apply app_eq_nil in C as [_ C]; discriminate C|].
        replace (s_line s =? Z.of_nat (List.length a)) with true by lia. f_equal.
        apply (H1 (List.length a)). now rewrite nth_error_app2, Nat.sub_diag by lia.
      * replace (s_line s =? Z.of_nat n) with false by lia. rewrite app_nil_r. apply H1.
        destruct (Nat.lt_ge_cases n (List.length a)) as [L|L].
        -- rewrite nth_error_app1 in N |- * by lia. exact N.
        -- rewrite nth_error_app2 in N |- * by lia.
           destruct (n - List.length a)%nat eqn:ED; [lia|]. exact N.
    + intros t I. rewrite app_length in *. cbn [List.length] in *. apply in_app_iff in I.
      destruct I as [I|[<-|[]]]; [apply H2 in I; lia|lia].
Qed.

Lemma counted_total : forall l, (forall s, In s l -> 0 <= s_line s) -> exists ls, Counted l ls.
Proof.
  induction l as [|s l IH] using rev_ind; intros HN; [exists []; constructor|].
  destruct IH as (ls & C); [intros; apply HN, in_or_app; auto|].
  assert (0 <= s_line s) as Hs by (apply HN, in_or_app; right; left; reflexivity).
  destruct (Z.leb_spec (Z.of_nat (List.length ls)) (s_line s)) as [L|L].
  - exists (ls ++ [[s]]). now apply Ct_new.
  - destruct (nth_error ls (Z.to_nat (s_line s))) as [x|] eqn:Ex; [|apply nth_error_None in Ex; lia].
    apply nth_error_split in Ex. destruct Ex as (a & b & -> & La).
    exists (a ++ (x ++ [s]) :: b). apply Ct_old; auto. lia.
Qed.

Lemma block_picked all s : Picked (SameBlock s) all (block_of all s).
Proof.
  apply (Picked_filter _ (fun t => matches_line (span_state s) (span_state t))); [|reflexivity].
  intros t. apply matches_line_iff.
Qed.

Lemma counted_block all s ls : Stacked all -> Counted (block_of all s) ls -> BlockLines all s ls.
Proof.
  intros HS C. destruct (counted_lines _ _ C (block_stacked all s HS)) as (H1 & H2). split.
  - intros n l N. destruct (H1 n l N) as (H3 & ->). split; auto. apply line_picked.
  - intros t I B. apply H2. apply filter_In. split; auto. now apply matches_line_iff.
Qed.

(** ** Columns *)

Section Places.
Variable d : Dms.
Hypothesis HF : table_fields (d_fonts d).
Local Notation fonts := (d_fonts d).

Definition ro_part (p : option Span) (n : Z) (t : Span) (g w : Z) : Z :=
  (if s_number t <=? n then g else 0) + (if s_number t <? n then w else 0).

Lemma RunOffset_cons p n t r g w v : gap_to fonts p t g -> SpanWidth fonts t w -> RunOffset fonts n (Some t) r v ->
  RunOffset fonts n p (t :: r) (ro_part p n t g w + v).
Proof.
  intros G W R. unfold ro_part. destruct p as [q|]; cbn [gap_to] in G.
  - now apply Ro_next.
  - subst g. replace (if s_number t <=? n then 0 else 0) with 0 by (destruct (_ <=? _); reflexivity). now apply Ro_first.
Qed.

Lemma RunOffset_inv p n t r u : RunOffset fonts n p (t :: r) u ->
  exists g w v, gap_to fonts p t g /\ SpanWidth fonts t w /\ RunOffset fonts n (Some t) r v /\ u = ro_part p n t g w + v.
Proof.
  intros H. unfold ro_part. inversion H as [|? ? w v W R|q ? ? g w v G W R]; subst.
  - exists 0, w, v. cbn [gap_to]. splits; auto. destruct (_ <=? _); lia.
  - exists g, w, v. cbn [gap_to]. splits; auto.
Qed.

Lemma RunOffset_fun n : forall l p v w, RunOffset fonts n p l v -> RunOffset fonts n p l w -> v = w.
Proof.
  induction l as [|t r IH]; intros p v w H K; [inversion H; inversion K; subst; auto|].
  apply RunOffset_inv in H, K. destruct H as (g & x & u & G & W & C & ->), K as (g' & x' & u' & G' & W' & C' & ->).
  now rewrite (gap_to_fun _ _ _ _ _ G G'), (SpanWidth_fun _ _ _ _ W W'), (IH _ _ _ C C').
Qed.

Lemma hloop_offset rs : forall l p b a b' a', Forall span_fields l -> prev_ok fonts p ->
  offset_horiz_loop Debug fonts rs l p b a = Val (Ok (b', a')) ->
  exists v, RunOffset fonts (rs_span rs) p l v /\ b' = b + v.
Proof.
  induction l as [|s r IH]; intros p b a b' a' HL HP H.
  - cbn [offset_horiz_loop] in H. injection H as <- <-. exists 0. split; [constructor|lia].
  - inversion HL as [|? ? HS HR]; subst. cbn [offset_horiz_loop] in H.
    apply try_ok in H. destruct H as ([b1 a1] & E1 & H).
    apply try_ok in H. destruct H as (w & EW & H).
    pose proof (proj1 (span_width_iff fonts HF s w HS) EW) as [SW _].
    assert (G : exists g, gap_to fonts p s g /\ b1 = b + if s_number s <=? rs_span rs then g else 0).
    { unfold s_number. destruct p as [q|].
      - destruct (HP q eq_refl) as (HQ & fq & Hq).
        apply try_ok in E1. destruct E1 as (g & Eg & E1). injection Eg as Eg.
        apply (gap_iff _ HF _ _ _ _ HF HQ HS Hq) in Eg. exists g. split; auto.
        destruct (_ <=? _); apply bind_val in E1; destruct E1 as (x & Ex & E1); apply chk16_val in Ex;
          injection E1 as <- <-; lia.
      - injection E1 as <- <-. exists 0. cbn [gap_to]. split; auto. destruct (_ <=? _); lia. }
    destruct G as (g & G & ->).
    assert (HP' : prev_ok fonts (Some s)).
    { intros t [= <-]. split; auto. eapply SpanWidth_font; eauto. }
    assert (X : exists b2 a2, offset_horiz_loop Debug fonts rs r (Some s) b2 a2 = Val (Ok (b', a'))
        /\ b2 = b + (if s_number s <=? rs_span rs then g else 0) + (if s_number s <? rs_span rs then w else 0)).
    { unfold s_number in *. destruct (_ <? _); apply bind_val in H; destruct H as (x & Ex & H); apply chk16_val in Ex;
        destruct Ex as [-> Ex]; eexists; eexists; (split; [exact H|lia]). }
    destruct X as (b2 & a2 & H2 & ->). apply IH in H2; auto. destruct H2 as (v & R & ->).
    eexists. split; [apply RunOffset_cons; eauto|]. unfold ro_part. lia.
Qed.

Lemma at_x all s x : Forall span_fields all -> In s all -> 0 <= char_width_pixels (d_vms_cfg d) -> rect_fits (s_rect s) ->
  span_x Debug d all s = Val (Ok x) -> AtX d all s x.
Proof.
  intros HS I Hc HR H. destruct (span_x_horiz _ _ _ _ H) as (q & Eq & Hq & J).
  destruct q as [[u v]|e]; [|exfalso; pose proof (proj2 (Hq e) eq_refl) as X; discriminate X].
  destruct (horiz_ok d HF _ s u v HS I Eq) as (R & Hb & Ha & L & _).
  destruct (span_x_calc d _ s u v Hc J HR Eq Hb Ha L) as (x' & Ex & P).
  rewrite Ex in H. injection H as ->.
  unfold offset_horiz in Eq. fold (run_of all s) in Eq. apply try_ok in Eq. destruct Eq as ([u' v'] & E & Eq).
  apply bind_val in Eq. destruct Eq as (t & _ & Eq). destruct (_ <=? _); [|discriminate Eq]. injection Eq as -> ->.
  apply hloop_offset in E; [|now apply run_of_fields|apply prev_none]. destruct E as (w & RO & Ew).
  exists (run_of all s), u, (u + v). splits; auto.
  - now apply run_of_picked.
  - replace u with w by lia. exact RO.
Qed.

Lemma at_y all s y : Forall span_fields all -> In s all -> 0 <= char_height_pixels (d_vms_cfg d) -> rect_fits (s_rect s) ->
  span_y Debug d all s = Val (Ok y) -> AtY d all s y.
Proof.
  intros HS I Hc HR H. unfold span_y in H. apply try_ok in H. destruct H as (base & Eb & H).
  apply try_ok in H. destruct H as (h & Eh & H). injection Eh as Eh. apply span_height_iff in Eh.
  apply bind_val in H. destruct H as (y' & Ey & H). injection H as <-. apply chk16_val in Ey. destruct Ey as [-> Ly].
  destruct (baseline_vert _ _ _ _ Eb) as (q & Eq & Hq & J).
  destruct q as [[a b]|e]; [|exfalso; pose proof (proj2 (Hq e) eq_refl) as X; discriminate X].
  destruct (vert_ok d HF all s a b HS I Eq) as (ts & Ec & OK & Ea & Et & Ha & Hb & L & _).
  destruct (baseline_calc d all s a b Hc J HR Eq Ha Hb L) as (y & Ey & PY). rewrite Ey in Eb. injection Eb as ->.
  destruct (block_counted d HF all s ts HS Ec) as (ls & PB & C & HL & _).
  set (k := Z.to_nat (s_line s + 1)) in *.
  assert (HL1 : Forall2 (LineRel fonts) (firstn k ls) (firstn k ts)).
  { clearbody k. clear - HL. revert k. induction HL; intros [|k]; cbn [firstn]; constructor; auto. }
  assert (OK1 : Forall tl_ok (firstn k ts)).
  { apply Forall_nth. intros i x Ni. rewrite Forall_forall in OK. apply OK.
    apply nth_error_In in Ni. rewrite <- (firstn_skipn k ts). apply in_app_iff. auto. }
  exists (block_of all s), ls, a, (a + b), base, h. splits; auto.
  - now apply (StackHeight_iff d _ _ HL1 OK1).
  - now apply (StackHeight_iff d _ _ HL OK).
Qed.

Hypothesis HV : valid_fonts fonts.
Hypothesis HC : vms_fields (d_vms_cfg d).

Lemma spans_at all : Forall span_fields all ->
  forall todo p q, incl todo all -> (forall s, In s todo -> SpanOn p s) -> raster_small p ->
  render_spans_loop Debug d all todo p = Val (Ok q) -> DrawnAt d all todo p q.
Proof.
  intros HS. pose proof HC as (U1 & U2 & _). unfold u8 in U1, U2.
  induction todo as [|s r IH]; intros p q HI HO Hsm H.
  - cbn in H. injection H as <-. constructor.
  - pose proof (HO s (or_introl eq_refl)) as HOs. pose proof (HI s (or_introl eq_refl)) as Is.
    destruct (draw_cons d HF HV HC all s r p q HS Is HOs Hsm H) as (x & y & f & cs & m & Ex & Ey & HW & HP & _ & H').
    apply (Da_cons d all s r p m q f cs x y); auto.
    + apply at_x; auto; [lia|apply HOs].
    + apply at_y; auto; [lia|apply HOs].
    + destruct HP as (P1 & P2 & _). apply IH; auto.
      * intros t It. apply HI. now right.
      * intros t It. apply (SpanOn_size p); auto. apply HO. now right.
      * unfold raster_small in *. lia.
Qed.
End Places.

Lemma text_drawn_at d spans p q : Built d -> Forall span_fields spans ->
  (forall s, In s spans -> SpanOn p s) -> raster_small p ->
  render_text_spans Debug d spans p = Val (Ok q) -> DrawnAt d spans spans p q.
Proof.
  intros HB HS HO Hsm H. destruct (Built_parts d HB) as (HF & HV & HC).
  unfold render_text_spans in H. apply try_ok in H. destruct H as (u & _ & H).
  apply (spans_at d HF HV HC spans HS spans p q); auto. apply incl_refl.
Qed.
