(** Lines of text that fit a rectangle are placed in it. *)

From Coq Require Import String.
From Verif Require Import Base Str Multi Color Raster Font Graphic Config Sign Render
  Spec_Multi Spec_Color Spec_Font Spec_Graphic Spec_Sign Spec_Render Spec_Layout Spec_Draw Spec_Page Spec_Safe Spec_Fail
  Proofs_Str Proofs_Font Proofs_Glyph Proofs_Sign Proofs_Build Proofs_Horiz Proofs_Vert Proofs_Layout Proofs_Place
  Proofs_Draw Proofs_Page Proofs_Text.
From Coq Require Import ZifyBool ZifyNat.
Ltac Zify.zify_post_hook ::= Z.div_mod_to_equations.
Open Scope list_scope.

Lemma picked_one {A} (P : A -> Prop) a s b g : (forall t, In t a -> ~ P t) -> (forall t, In t b -> ~ P t) -> P s ->
  Picked P (a ++ s :: b) g -> g = [s].
Proof.
  intros Ha Hb Hs H. assert (HN : forall l g, (forall t, In t l -> ~ P t) -> Picked P l g -> g = []).
  { clear. intros l g Hl H. induction H as [|x l g Hx H IH|x l g Hx H IH]; auto.
    - destruct (Hl x (or_introl eq_refl) Hx).
    - apply IH. intros t I. apply Hl. now right. }
  induction a as [|x a IH]; cbn [app] in H; inversion H as [|? ? ? Hx H'|? ? ? Hx H']; subst.
  - f_equal. eauto.
  - contradiction.
  - destruct (Ha x (or_introl eq_refl) Hx).
  - apply IH; auto. intros t I. apply Ha. now right.
Qed.

Lemma picked_all {A} (P : A -> Prop) l g : (forall t, In t l -> P t) -> Picked P l g -> g = l.
Proof.
  intros Hl H. induction H as [|x l g Hx H IH|x l g Hx H IH]; auto.
  - f_equal. apply IH. intros t I. apply Hl. now right.
  - destruct Hx. apply Hl. now left.
Qed.

Lemma In_firstn {A} (x : A) n l : In x (firstn n l) -> In x l.
Proof. intros I. rewrite <- (firstn_skipn n l). apply in_or_app. now left. Qed.

Lemma line_width_app sp ws vs : 0 <= sp -> Forall (fun c => 0 <= c) ws -> Forall (fun c => 0 <= c) vs ->
  line_width sp ws <= line_width sp (ws ++ vs).
Proof.
  intros Hs H1 H2. rewrite <- !line_width_fold; auto; [|apply Forall_app; auto]. rewrite fold_left_app.
  now apply acc_mono.
Qed.

(** Spans that make up lines 0, 1, 2 ... of one block, each in the font [f] and
    with its own justification. *)
Section Lines.
Variable d : Dms.
Hypothesis HB : Built d.
Variables (r : Rectangle) (jp : JustificationPage) (jl : JustificationLine) (f : Font).

Definition fit_span (s : Span) (i : nat) : Prop :=
  s_line s = Z.of_nat i /\ s_number s = 0 /\ s_jp s = jp /\ s_jl s = jl /\ s_rect s = r
  /\ rs_char_spacing (span_state s) = None /\ rs_line_spacing (span_state s) = None
  /\ SoundFont d (rs_font (span_state s))
  /\ span_fields s
  /\ exists cs, SetWith (d_fonts d) s f cs /\ line_width (f_char_spacing f) (map c_width cs) <= rwidth r.

Variable all : list Span.
Hypothesis HA : forall i s, nth_error all i = Some s -> fit_span s i.

Hypothesis HR : rect_in d r.
Hypothesis HJ : jl = JlLeft \/ jl = JlCenter \/ jl = JlRight.
Hypothesis HJp : jp = JpTop \/ jp = JpMiddle \/ jp = JpBottom.
Hypothesis HK1 : on_boundary (char_width_pixels (d_vms_cfg d)) (rx r - 1).
Hypothesis HK2 : on_boundary (char_height_pixels (d_vms_cfg d)) (ry r - 1).
Hypothesis HK3 : on_boundary (char_height_pixels (d_vms_cfg d)) (f_height f).

Definition stack_of (n : Z) : Z :=
  if n =? 0 then 0 else n * f_height f + (if char_height_pixels (d_vms_cfg d) =? 0 then (n - 1) * f_line_spacing f else 0).
Hypothesis HH : stack_of (Z.of_nat (List.length all)) <= rheight r.

Lemma fit_in s : In s all -> exists i, nth_error all i = Some s /\ fit_span s i.
Proof. intros I. apply In_nth_error in I as (i & E). eauto. Qed.

Lemma fit_font s i : fit_span s i -> FontOf (d_fonts d) s f.
Proof. intros (_ & _ & _ & _ & _ & _ & _ & _ & _ & cs & (F & _) & _). exact F. Qed.

Lemma fit_spacing s i : fit_span s i -> spacing_in s f = f_char_spacing f.
Proof. intros (_ & _ & _ & _ & _ & E & _). unfold spacing_in. now rewrite E. Qed.

Lemma fit_alone s i run : nth_error all i = Some s -> Picked (SameRun s) all run -> run = [s].
Proof.
  intros E. destruct (nth_error_split all i E) as (a & b & Eq & L). intros H.
  assert (HL : forall j t, nth_error all j = Some t -> j <> i -> ~ SameRun s t).
  { intros j t Ej N (_ & SL & _). destruct (HA j t Ej) as (L1 & _). destruct (HA i s E) as (L2 & _). lia. }
  rewrite Eq in H. revert H. apply picked_one.
  - intros t I. apply In_nth_error in I as (j & Ej). apply (HL j).
    + rewrite Eq. rewrite nth_error_app1; auto. apply nth_error_Some. congruence.
    + assert (j < List.length a)%nat by (apply nth_error_Some; congruence). lia.
  - intros t I. apply In_nth_error in I as (j & Ej). apply (HL (List.length a + S j)%nat); [|lia].
    rewrite Eq. rewrite nth_error_app2 by lia. replace (_ - _)%nat with (S j) by lia. exact Ej.
  - unfold SameRun. auto.
Qed.

Lemma fit_width s i w : nth_error all i = Some s -> SpanWidth (d_fonts d) s w -> 0 <= w <= rwidth r.
Proof.
  intros E (g & cs' & HS & ->). pose proof (HA i s E) as F. pose proof (fit_spacing s i F) as ES.
  pose proof (fit_font s i F) as HF. destruct F as (_ & _ & _ & _ & _ & _ & _ & _ & FF & cs & HS' & L).
  destruct (set_with_fun _ _ _ _ _ _ HS HS') as [-> ->]. rewrite ES. split; auto.
  destruct (Built_parts d HB) as (T & _ & _).
  rewrite <- ES. apply (SpanWidth_nonneg (d_fonts d) T s); auto. exists f, cs. auto.
Qed.

Lemma fit_out_of_order : ~ OutOfOrder all.
Proof.
  intros (a & s & t & b & E & [H|(_ & H & _)]).
  - assert (In s all /\ In t all) as [Is It] by (rewrite E; split; apply in_or_app; right; cbn; auto).
    apply fit_in in Is as (i & _ & Fs), It as (j & _ & Ft).
    destruct Fs as (_ & _ & E1 & _), Ft as (_ & _ & E2 & _). rewrite E1, E2 in H. lia.
  - assert (nth_error all (List.length a) = Some s) as Es.
    { rewrite E, nth_error_app2 by lia. now rewrite Nat.sub_diag. }
    assert (nth_error all (S (List.length a)) = Some t) as Et.
    { rewrite E, nth_error_app2 by lia. replace (_ - _)%nat with 1%nat by lia. reflexivity. }
    destruct (HA _ _ Es) as (L1 & _), (HA _ _ Et) as (L2 & _). lia.
Qed.

Lemma fit_block s block : In s all -> Picked (SameBlock s) all block -> block = all.
Proof.
  intros I. apply picked_all. intros t It. apply fit_in in I as (i & _ & Fs), It as (j & _ & Ft).
  destruct Fs as (_ & _ & E1 & _), Ft as (_ & _ & E2 & _). unfold SameBlock. congruence.
Qed.

Lemma fit_counted ls : Counted all ls -> ls = map (fun s => [s]) all.
Proof.
  intros H. apply (counted_fun _ _ H). clear H.
  assert (HP : forall l m, all = l ++ m -> Counted l (map (fun s => [s]) l)).
  { induction l as [|s l IH] using rev_ind; intros m E; [constructor|]. rewrite map_app. apply Ct_new.
    - rewrite <- app_assoc in E. eauto.
    - rewrite map_length. rewrite <- app_assoc in E. destruct (HA (List.length l) s) as (L & _).
      + rewrite E, nth_error_app2 by lia. now rewrite Nat.sub_diag.
      + rewrite L. lia. }
  apply (HP all []). now rewrite app_nil_r.
Qed.

Lemma fit_stack ls v : StackHeight d ls v -> (forall l, In l ls -> exists s, In s all /\ l = [s]) ->
  v = stack_of (Z.of_nat (List.length ls)).
Proof.
  assert (HG : forall s h, In s all -> Greatest (HeightOf (d_fonts d)) [s] h -> h = f_height f).
  { intros s h I ((x & [<-|[]] & (g & Hg & ->)) & _). apply fit_in in I as (i & _ & F).
    now rewrite (FontOf_fun _ _ _ _ Hg (fit_font s i F)). }
  assert (HL : forall s h, In s all -> Greatest (LeadOf (d_fonts d)) [s] h -> h = f_line_spacing f).
  { intros s h I ((x & [<-|[]] & (g & Hg & ->)) & _). apply fit_in in I as (i & _ & F).
    now rewrite (FontOf_fun _ _ _ _ Hg (fit_font s i F)). }
  induction 1 as [|l h G|rr p l v g h H IH HGp G]; intros HI.
  - reflexivity.
  - destruct (HI l (or_introl eq_refl)) as (s & Is & ->). rewrite (HG s h Is G). unfold stack_of. cbn [List.length]. 
    change (Z.of_nat 1) with 1. replace (1 =? 0) with false by reflexivity. destruct (_ =? 0); lia.
  - destruct (HI p) as (s & Is & ->); [apply in_or_app; right; now left|].
    destruct (HI l) as (t & It & ->); [apply in_or_app; right; right; now left|].
    rewrite (HG t h It G). rewrite IH.
    2:{ intros l I. apply HI. apply in_app_or in I as [I|[<-|[]]]; apply in_or_app; auto. right. now left. }
    assert (g = if char_height_pixels (d_vms_cfg d) =? 0 then f_line_spacing f else 0) as ->.
    { destruct HGp as [N|n E A|x y E A G1 G2].
      - replace (_ =? 0) with false by lia. reflexivity.
      - exfalso. inversion A as [|? a u b m Eu _ En]; subst. assert (u = t) as ->.
        { destruct a as [|? [|? a]]; try discriminate Eu. now injection Eu. }
        apply fit_in in It as (i & _ & F). destruct F as (_ & _ & _ & _ & _ & _ & E2 & _). congruence.
      - replace (_ =? 0) with true by lia. rewrite (HL s x Is G1), (HL t y It G2). unfold half_up. lia. }
    rewrite !app_length. cbn [List.length]. unfold stack_of.
    replace (Z.of_nat (_ + 1) =? 0) with false by lia. replace (Z.of_nat (_ + 2) =? 0) with false by lia.
    destruct (_ =? 0); lia.
Qed.

Lemma fit_rect_fits : rect_fits r.
Proof.
  destruct (Built_parts d HB) as (_ & _ & (C1 & C2 & C3 & C4 & _)). destruct HR as (R1 & R2 & R3 & R4 & R5 & R6).
  unfold u8, u16 in *. unfold rect_fits. lia.
Qed.

Lemma fit_sizes : 0 <= f_height f /\ 0 <= f_line_spacing f \/ all = [].
Proof.
  destruct all as [|s l] eqn:E; [now right|left]. destruct (Built_parts d HB) as (T & _ & _).
  pose proof (HA 0%nat s eq_refl) as F. apply fit_font in F. apply (FontOf_fields _ _ _ T) in F.
  destruct F as (_ & U1 & _ & U2 & _). unfold u8 in *. lia.
Qed.

(** The bottom of line [i]. *)
Lemma fit_y s i y : nth_error all i = Some s -> AtY d all s y ->
  ry r - 1 <= y /\ y + f_height f <= ry r - 1 + rheight r.
Proof.
  intros E (block & ls & a & total & base & h & HP & HC & S1 & S2 & L & PY & (g & Hg & ->) & ->).
  assert (I : In s all) by (eapply nth_error_In; eauto).
  apply (fit_block s) in HP; auto. subst block. apply fit_counted in HC. subst ls.
  pose proof (HA i s E) as F. pose proof (fit_font s i F) as Hf. rewrite (FontOf_fun _ _ _ _ Hg Hf) in *. clear g Hg.
  assert (HX : forall l, In l (map (fun s => [s]) all) -> exists s, In s all /\ l = [s]).
  { intros l J. apply in_map_iff in J as (u & <- & J). eauto. }
  apply fit_stack in S2; auto. apply fit_stack in S1.
  2:{ intros l J. apply HX. eapply In_firstn; eauto. }
  rewrite firstn_length, map_length in S1. rewrite map_length in S2.
  destruct F as (L1 & L2 & Ejp & _ & Er & _). rewrite L1 in S1.
  assert (i < List.length all)%nat by (apply nth_error_Some; congruence).
  replace (Nat.min (Z.to_nat (Z.of_nat i + 1)) (List.length all)) with (S i) in S1 by lia.
  rewrite Er, Ejp in *.
  destruct fit_sizes as [[Z1 Z2]|Z]; [|subst all; destruct i; discriminate E].
  remember (List.length all) as n eqn:En.
  assert (stack_of (Z.of_nat (S i)) >= f_height f /\ stack_of (Z.of_nat (S i)) <= stack_of (Z.of_nat n)) as [B1 B2].
  { unfold stack_of. replace (Z.of_nat (S i) =? 0) with false by lia. replace (Z.of_nat n =? 0) with false by lia.
    assert (0 <= (Z.of_nat n - Z.of_nat (S i)) * f_height f) by (apply Z.mul_nonneg_nonneg; lia).
    assert (0 <= Z.of_nat i * f_height f) by (apply Z.mul_nonneg_nonneg; lia).
    assert (0 <= (Z.of_nat n - Z.of_nat (S i)) * f_line_spacing f) by (apply Z.mul_nonneg_nonneg; lia).
    assert (0 <= Z.of_nat i * f_line_spacing f) by (apply Z.mul_nonneg_nonneg; lia).
    destruct (_ =? 0); lia. }
  destruct (Built_parts d HB) as (_ & _ & (C1 & C2 & _)). unfold u8 in *.
  pose proof (place_y_box (char_height_pixels (d_vms_cfg d)) (ry r - 1) (rheight r) a (total - a) base (f_height f) jp) as PB.
  replace (a + (total - a)) with total in PB by lia. specialize (PB ltac:(lia) PY ltac:(lia) ltac:(lia) ltac:(lia) ltac:(auto)). lia.
Qed.

Lemma fit_x s i x w : nth_error all i = Some s -> AtX d all s x -> SpanWidth (d_fonts d) s w ->
  rx r - 1 <= x /\ x + w <= rx r - 1 + rwidth r.
Proof.
  intros E (run & b & total & HP & HO & HW & L & PX) SW. apply (fit_alone s i) in HP; auto. subst run.
  pose proof (HA i s E) as F. destruct F as (_ & N0 & _ & Ej & Er & _).
  pose proof (fit_width s i w E SW) as Bw.
  assert (total = w) as ->.
  { inversion HW as [? ? SW'|? ? ? ? ? ? ? ? ?]; subst. now apply (SpanWidth_fun (d_fonts d) s). }
  assert (b = 0) as ->.
  { inversion HO as [|? ? w' v SW' HO'|]; subst. inversion HO'; subst. replace (_ <? _) with false by lia. lia. }
  rewrite Er, Ej in *. destruct (Built_parts d HB) as (_ & _ & (C1 & C2 & _)). unfold u8 in *.
  pose proof (place_x_box (char_width_pixels (d_vms_cfg d)) (rx r - 1) (rwidth r) 0 w x w jl) as PB.
  apply PB; auto; lia.
Qed.

Lemma fit_ink s i x y f' cs px py : nth_error all i = Some s -> AtX d all s x -> AtY d all s y ->
  SetWith (d_fonts d) s f' cs -> InkText (spacing_in s f') (f_height f') cs x y px py -> SignPixel d px py.
Proof.
  intros E HX HY HS HI. pose proof (HA i s E) as F. pose proof (fit_font s i F) as Hf.
  assert (f' = f) as ->. { destruct HS as (Hf' & _). exact (FontOf_fun _ _ _ _ Hf' Hf). }
  assert (SW : SpanWidth (d_fonts d) s (line_width (spacing_in s f) (map c_width cs))) by (exists f, cs; auto).
  pose proof (fit_x s i x _ E HX SW) as BX. pose proof (fit_y s i y E HY) as BY.
  destruct F as (_ & _ & _ & _ & _ & _ & _ & HN & Fs & _).
  destruct (Built_parts d HB) as (T & V & C).
  pose proof HS as (_ & t & Ht & Hsp). pose proof (FontOf_fields _ _ _ T Hf) as Hff.
  pose proof Fs as (_ & _ & _ & _ & t' & Ht' & Hz).
  assert (t' = t) as -> by (apply ShowsText_str in Ht, Ht'; congruence).
  apply (ink_lit f t cs) in HI; auto; [|now apply (used_sound d V s)].
  pose proof (spacing_u8 s f Fs Hff) as Us. unfold u8 in Us.
  assert (W : Forall (fun c => 0 <= c) (map c_width cs)) by (apply (widths_nonneg f t); auto; apply Hff).
  apply LitText_box in HI; auto; [|lia].
  destruct HR as (R1 & R2 & R3 & R4 & R5 & R6). unfold SignPixel. lia.
Qed.

Lemma fit_span_fault s i e : nth_error all i = Some s -> ~ SpanFault d s e.
Proof.
  intros E H. pose proof (HA i s E) as F. pose proof (fit_font s i F) as Hf.
  pose proof (fit_spacing s i F) as ES. destruct F as (_ & _ & _ & _ & _ & _ & _ & _ & Fs & cs & HS & L).
  pose proof HS as (_ & t & Ht & Hsp). destruct (Built_parts d HB) as (T & V & C). pose proof (FontOf_fields _ _ _ T Hf) as Hff.
  destruct H as [e H|g Hg HL|g t' cs' ch Hg NL Ht' HM].
  - exact (font_sound d s f e Hf H).
  - rewrite (FontOf_fun _ _ _ _ Hg Hf) in *. destruct HL as (t1 & t2 & cs1 & Ht1 & Hsp1 & L1).
    assert (t = t1 ++ t2) as -> by (apply ShowsText_str in Ht, Ht1; congruence).
    apply Forall2_app_inv_l in Hsp as (ca & cb & Ha & Hb & ->).
    assert (ca = cs1) as -> by (eapply Spells_fun; eauto).
    pose proof fit_rect_fits as (R1 & R2 & R3 & R4 & R5 & R6). rewrite ES in L1.
    pose proof (spacing_u8 s f Fs Hff) as Us. unfold u8 in Us. rewrite ES in Us.
    assert (W : Forall (fun c => 0 <= c) (map c_width (cs1 ++ cb))).
    { apply (widths_nonneg f (t1 ++ t2)); [apply Hff|]. now apply Forall2_app. }
    rewrite map_app in W, L. apply Forall_app in W as [W1 W2].
    pose proof (line_width_app (f_char_spacing f) (map c_width cs1) (map c_width cb) ltac:(lia) W1 W2). lia.
  - rewrite (FontOf_fun _ _ _ _ Hg Hf) in *. assert (t' = t) as -> by (apply ShowsText_str in Ht, Ht'; congruence).
    eapply spells_missing; eauto.
Qed.

Lemma fit_run_fault s i : nth_error all i = Some s -> NoFault (RunFault d (s_number s)) [s].
Proof.
  intros E. change [s] with ([] ++ [s]). apply NoFault_snoc. split; [apply NoFault_nil|].
  intros e H. destruct H as [(l' & p & g & b & a & E' & _)|e _ H|b a HS HO].
  - destruct l'; discriminate E'.
  - exact (fit_span_fault s i e E H).
  - destruct HS as (HO1 & [[E1 _]|HW]); [discriminate E1|]. cbn [app] in *.
    inversion HW as [? ? SW|? ? ? ? ? ? ? ? ?]; subst. apply (fit_width s i) in SW; auto.
    inversion HO1 as [|? ? w' v SW' HO'|]; subst. inversion HO'; subst. replace (_ <? _) with false in * by lia.
    pose proof fit_rect_fits as (R1 & R2 & R3 & R4 & R5 & R6). lia.
Qed.

Lemma fit_sound e : ~ TextFails d all e.
Proof.
  intros [H|e' _ H]; [exact (fit_out_of_order H)|]. apply First_in in H as (s & I & H).
  apply In_nth_error in I as (i & E). assert (I : In s all) by (eapply nth_error_In; eauto).
  pose proof (HA i s E) as F. pose proof F as (L1 & L2 & Ejp & Ejl & Er & _).
  assert (HRW : forall w, RunSet d all s w -> w <= rwidth (s_rect s)).
  { intros w (_ & run & HP & _ & HW). apply (fit_alone s i) in HP; auto. subst run. rewrite Er.
    inversion HW as [? ? SW|? ? ? ? ? ? ? ? ?]; subst. apply (fit_width s i) in SW; auto. lia. }
  destruct H as [H|run e' _ HP H|w HS L|w _ _ H|w block e' _ _ _ HP H|w h _ _ HS L|w h x y g cs _ _ _ _ _ HY L _ _|w h x y g cs px py _ _ _ _ _ HY L _ _ _
    |w h x y g cs px py _ _ _ _ HX HY _ HS HI N].
  - rewrite Ejl in H. destruct HJ as [J|[J|J]], H as [H|H]; congruence.
  - apply (fit_alone s i) in HP; auto. subst run. exact (First_not _ _ _ H (fit_run_fault s i E)).
  - apply HRW in HS. lia.
  - rewrite Ejp in H. destruct HJp as [J|[J|J]]; congruence.
  - apply First_in in H as (t & It & H). apply (fit_block s) in HP; auto. subst block.
    apply fit_in in It as (j & _ & Ft). apply fit_font in Ft. exact (font_sound d t f e' Ft H).
  - destruct HS as (_ & block & ls & HP & _ & HC & HT). apply (fit_block s) in HP; auto. subst block.
    apply fit_counted in HC. subst ls. apply fit_stack in HT.
    + rewrite map_length in HT. rewrite Er in L. lia.
    + intros l J. apply in_map_iff in J as (u & <- & J). eauto.
  - pose proof (fit_y s i y E HY). destruct HR as (_ & R2 & _). lia.
  - pose proof (fit_y s i y E HY). destruct HR as (_ & R2 & _). lia.
  - apply N. eapply fit_ink; eauto.
Qed.
End Lines.
