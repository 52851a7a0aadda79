(** How the text of a text rectangle is placed, or why it is not (C41, C55). *)

From Coq Require Import String Lia ZifyBool ZifyNat.
From Verif Require Import Base Str Multi Color Raster Font Graphic Config Sign Render
  Spec_Multi Spec_Color Spec_Font Spec_Tfon Spec_Graphic Spec_Sign Spec_Render Spec_Layout Spec_Draw Spec_Page Spec_Fail
  Proofs_Str Proofs_Norm Proofs_Color Proofs_Font Proofs_Glyph Proofs_Table Proofs_Sign Proofs_Render Proofs_Horiz Proofs_Vert Proofs_Layout
  Proofs_Machine Proofs_Iter Proofs_Pages Proofs_Count Proofs_Build Proofs_Place Proofs_Draw Proofs_Each Proofs_Page
  Spec_Safe Proofs_Modes Proofs_Safe.
Open Scope list_scope.
Ltac Zify.zify_post_hook ::= Z.div_mod_to_equations.

(** ** Text *)

Lemma spells_missing f : forall t cs ds ch, Spells f t cs -> FirstMissing f t ds ch -> False.
Proof.
  intros t cs ds ch H (pre & post & -> & _ & N).
  assert (X : forall a b cs, Spells f (a ++ ch :: b) cs -> exists e, HasChar f ch e).
  { induction a as [|x a IH]; intros b cs' K; cbn [app] in K; inversion K; subst; eauto. }
  destruct (X pre post cs H) as (e & E). now apply (N e).
Qed.

Lemma NoFault_nil {A} (F : list A -> A -> Fault -> Prop) : NoFault F [].
Proof. intros a x b f E. destruct a; discriminate E. Qed.

Lemma NoFault_snoc {A} (F : list A -> A -> Fault -> Prop) l x : NoFault F (l ++ [x]) <-> NoFault F l /\ forall f, ~ F l x f.
Proof.
  split.
  - intros H. split; [|intros f; now apply (H l x [])].
    intros a y b f ->. apply (H a y (b ++ [x])). now rewrite <- app_assoc.
  - intros [H1 H2] a y b f E. destruct (rev b) as [|z b'] eqn:Eb.
    + apply (f_equal (@rev A)) in Eb. rewrite rev_involutive in Eb. cbn in Eb. subst b.
      apply app_inj_tail in E as [-> ->]. apply H2.
    + apply (f_equal (@rev A)) in Eb. rewrite rev_involutive in Eb. cbn in Eb. subst b.
      change (l ++ [x] = a ++ (y :: rev b') ++ [z]) in E. rewrite app_assoc in E. apply app_inj_tail in E as [E ->].
      now apply (H1 a y (rev b')).
Qed.

Lemma NoFault_app {A} (F : list A -> A -> Fault -> Prop) a b : NoFault F (a ++ b) -> NoFault F a.
Proof. intros H x y z f ->. apply (H x y (z ++ b)). now rewrite <- app_assoc. Qed.

Lemma NoFault_each {A} (F : A -> Fault -> Prop) l : NoFault (fun _ => F) l <-> forall x f, In x l -> ~ F x f.
Proof.
  split.
  - intros H x f I. apply in_split in I as (a & b & ->). now apply (H a x b).
  - intros H a x b f ->. apply H. apply in_elt.
Qed.

Lemma First_in {A} (F : A -> Fault -> Prop) l f : First (fun _ => F) l f -> exists x, In x l /\ F x f.
Proof. intros [a x b f' _ H]. exists x. split; auto. apply in_elt. Qed.

Lemma First_not {A} (F : list A -> A -> Fault -> Prop) l f : First F l f -> ~ NoFault F l.
Proof. intros [a x b f' _ H] N. now apply (N a x b f'). Qed.

Lemma First_app {A} (F : list A -> A -> Fault -> Prop) a b f : First F a f -> First F (a ++ b) f.
Proof. intros [x y z f' N H]. rewrite <- app_assoc. cbn [app]. now constructor. Qed.

(** How a computation that can fail and overflow ends. *)
Definition outcome {A} (m : M (result A SyntaxError)) (G : A -> Prop) (S : Fault -> Prop) : Prop :=
  match m with
  | Val (Ok a) => G a
  | Val (Err e) => S (Reported e)
  | Panic => S (Overflow None)
  | Hang => False
  end.

Lemma outcome_try {A B} (m : M (result A SyntaxError)) (k : A -> M (result B SyntaxError)) (G' : A -> Prop) (G : B -> Prop) (S : Fault -> Prop) :
  outcome m G' S -> (forall a, m = Val (Ok a) -> G' a -> outcome (k a) G S) -> outcome (try m k) G S.
Proof. destruct m as [[a|e]| |]; cbn; auto. Qed.

Lemma outcome_weak {A} (m : M (result A SyntaxError)) (G G' : A -> Prop) (S S' : Fault -> Prop) :
  outcome m G S -> (forall a, G a -> G' a) -> (forall f, S f -> S' f) -> outcome m G' S'.
Proof. destruct m as [[a|e]| |]; cbn; auto. Qed.

Lemma outcome_chk16 {B} z (k : Z -> M (result B SyntaxError)) (G : B -> Prop) (S : Fault -> Prop) : 0 <= z ->
  (65536 <= z -> S (Overflow None)) -> (z < 65536 -> outcome (k z) G S) -> outcome (bind (chk16 Debug z) k) G S.
Proof.
  intros H0 H1 H2. destruct (Z_lt_ge_dec z 65536) as [L|L].
  - unfold chk16. rewrite chk_in by lia. cbn [bind]. auto.
  - unfold chk16. rewrite (proj2 (chk_debug _ _)) by lia. cbn. apply H1. lia.
Qed.

(** How a computation ends in a debug build, when [r] is what it is in a release
    build. *)
Definition fate {A} (m r : M (result A SyntaxError)) (G : A -> Prop) (S : Fault -> Prop) : Prop :=
  match m with
  | Val (Ok a) => G a
  | Val (Err e) => S (Reported e)
  | Panic => S (Overflow None) \/ (S Crash /\ r = Panic) \/ (exists e, S (Overflow (Some e)) /\ r = Val (Err e))
  | Hang => False
  end.

Lemma fate_outcome {A} (m r : M (result A SyntaxError)) (G : A -> Prop) (S : Fault -> Prop) : outcome m G S -> fate m r G S.
Proof. destruct m as [[a|e]| |]; cbn; auto. Qed.

Lemma fate_try {A B} (m r : M (result A SyntaxError)) (k l : A -> M (result B SyntaxError)) (G' : A -> Prop) (G : B -> Prop) (S : Fault -> Prop) :
  agree m r -> fate m r G' S -> (forall a, m = Val (Ok a) -> G' a -> fate (k a) (l a) G S) -> fate (try m k) (try r l) G S.
Proof.
  intros HA. destruct m as [[a|e]| |]; cbn [fate try].
  - rewrite (HA _ eq_refl). cbn [try]. auto.
  - auto.
  - intros [H|[(H & ->)|(e & H & ->)]] _; cbn [try]; eauto.
  - auto.
Qed.

Lemma fate_weak {A} (m r : M (result A SyntaxError)) (G G' : A -> Prop) (S S' : Fault -> Prop) :
  fate m r G S -> (forall a, G a -> G' a) -> (forall f, S f -> S' f) -> fate m r G' S'.
Proof.
  destruct m as [[a|e]| |]; cbn; auto. intros [H|[(H & ->)|(e & H & ->)]]; eauto 7.
Qed.

Lemma RunWidth_fun fonts run v w : RunWidth fonts run v -> RunWidth fonts run w -> v = w.
Proof.
  intros H K. destruct run as [|s r]; [inversion H|]. apply RunWidth_chain in H, K. eapply Chain_fun; eauto.
Qed.

Lemma place_x_fun j cw l w t b x y : place_x j cw l w t b x -> place_x j cw l w t b y -> x = y.
Proof. destruct j; cbn; intros; try contradiction; congruence. Qed.

Lemma place_y_fun j ch t h tot a x y : place_y j ch t h tot a x -> place_y j ch t h tot a y -> x = y.
Proof. destruct j; cbn; intros; try contradiction; congruence. Qed.

Lemma set_with_fun fonts s f cs f' cs' : SetWith fonts s f cs -> SetWith fonts s f' cs' -> f = f' /\ cs = cs'.
Proof.
  intros (F & t & S & P) (F' & t' & S' & P'). pose proof (FontOf_fun _ _ _ _ F F') as <-.
  apply ShowsText_str in S, S'. subst t t'. split; auto. exact (Spells_fun _ _ _ _ P P').
Qed.

Lemma at_x_fun d all s x y : AtX d all s x -> AtX d all s y -> x = y.
Proof.
  intros (run & b & t & P & R & W & _ & X) (run' & b' & t' & P' & R' & W' & _ & X').
  pose proof (Picked_fun _ _ _ _ P' P) as ->. rewrite (RunOffset_fun _ _ _ _ _ _ R' R), (RunWidth_fun _ _ _ _ W' W) in X'.
  exact (place_x_fun _ _ _ _ _ _ _ _ X X').
Qed.

Lemma at_y_fun d all s x y : AtY d all s x -> AtY d all s y -> x = y.
Proof.
  intros (bl & ls & a & t & base & h & P & C & A & T & _ & X & H & ->)
         (bl' & ls' & a' & t' & base' & h' & P' & C' & A' & T' & _ & X' & H' & ->).
  pose proof (Picked_fun _ _ _ _ P' P) as ->. pose proof (counted_fun _ _ C _ C') as <-.
  rewrite (StackHeight_fun _ _ _ _ A' A), (StackHeight_fun _ _ _ _ T' T) in X'.
  rewrite (HeightOf_fun _ _ _ _ H' H), (place_y_fun _ _ _ _ _ _ _ _ X X'). reflexivity.
Qed.

Section Text.
Variable d : Dms.
Hypothesis HF : table_fields (d_fonts d).
Local Notation fonts := (d_fonts d).

Lemma font_cause s e : rs_get_font (span_state s) fonts = Err e -> FontFault d s (Reported e).
Proof.
  intros H. unfold rs_get_font in H. destruct (font_lookup fonts (rs_font (span_state s))) as [f|] eqn:E.
  - apply FirstFont_lookup in E. destruct (rs_font_vid (span_state s)) as [v|] eqn:Ev; [|discriminate H].
    destruct (Z.eqb_spec v (font_version_id f)) as [Eq|N]; [discriminate H|]. injection H as <-.
    now apply (Ff_version d s f v).
  - injection H as <-. apply Ff_missing. now apply font_lookup_none.
Qed.

Lemma font_sound s f e : FontOf fonts s f -> ~ FontFault d s e.
Proof.
  intros [H1 H2] [N|g k F V N].
  - apply FirstFont_lookup in H1. apply font_lookup_none in N. congruence.
  - apply FirstFont_lookup in H1, F. assert (g = f) as -> by congruence. apply N. now apply H2.
Qed.

(** The width of a text, or why it has none. *)
Lemma width_out s : span_fields s ->
  outcome (span_width Debug s fonts) (fun w => SpanWidth fonts s w /\ 0 <= w < 65536) (SpanFault d s).
Proof.
  intros HS. pose proof HS as (_ & _ & _ & _ & t & Ht & _). pose proof (ShowsText_str s t Ht) as Et.
  unfold span_width. rewrite Et.
  destruct (rs_get_font (span_state s) fonts) as [f|e'] eqn:Ef; cbn [try].
  2:{ cbn. apply Sf_font. now apply font_cause. }
  apply get_font_iff in Ef. rewrite (spacing_fonts _ _ _ Ef). cbn [try].
  pose proof (FontOf_fields _ _ _ HF Ef) as Hff.
  pose proof (spacing_u8 _ _ HS Hff) as Hu. unfold u8 in Hu.
  destruct Hff as (_ & _ & _ & _ & Hcf & _).
  assert (HL : TooLong s f -> text_width Debug f t (Some (spacing_in s f)) = Panic).
  { intros (t1 & t2 & cs & ST & SP & L). apply ShowsText_str in ST. rewrite ST in Et. subst t.
    apply (text_width_panic f t1 t2 (Some (spacing_in s f)) cs); auto; cbn [spacing_of]; lia. }
  destruct (spells_or_missing f t) as [(cs & Hsp)|(cs & ch & Hm)].
  - destruct (Z_lt_ge_dec (line_width (spacing_in s f) (map c_width cs)) 65536) as [L|L].
    + rewrite (text_width_ok Debug f t (Some (spacing_in s f)) cs); auto; cbn [spacing_of]; [|lia].
      cbn. assert (SW : SpanWidth fonts s (line_width (spacing_in s f) (map c_width cs))).
      { exists f, cs. split; auto. split; auto. eauto. }
      pose proof (SpanWidth_nonneg fonts HF _ _ HS SW). split; auto.
    + rewrite <- (app_nil_r t).
      rewrite (text_width_panic f t [] (Some (spacing_in s f)) cs); auto; cbn [spacing_of]; try lia.
      cbn. apply (Sf_long d s f Ef). exists t, [], cs. rewrite app_nil_r. splits; auto. lia.
  - destruct (Z_lt_ge_dec (line_width (spacing_in s f) (map c_width cs)) 65536) as [L|L].
    + pose proof (text_width_missing Debug f t (Some (spacing_in s f)) cs ch Hcf ltac:(cbn [spacing_of]; lia) Hm ltac:(auto)) as EW.
      rewrite EW. cbn. eapply Sf_char; eauto. intros TL. rewrite (HL TL) in EW. discriminate EW.
    + pose proof Hm as (pre & post & -> & Hsp & _).
      rewrite (text_width_panic f pre (ch :: post) (Some (spacing_in s f)) cs); auto; cbn [spacing_of]; try lia.
      cbn. apply (Sf_long d s f Ef). exists pre, (ch :: post), cs. splits; auto. lia.
Qed.

Lemma span_sound s w e : span_fields s -> span_width Debug s fonts = Val (Ok w) -> ~ SpanFault d s e.
Proof.
  intros HS H X. pose proof HS as (_ & _ & _ & _ & t & Ht & _). pose proof (ShowsText_str s t Ht) as Et.
  pose proof H as H0. apply span_width_iff in H as [(f & cs & (FO & t' & ST & SP) & EW) L]; auto.
  destruct X as [e' X|g FO' TL|g u ds ch FO' _ ST' M].
  - exact (font_sound s f e' FO X).
  - pose proof (FontOf_fun _ _ _ _ FO FO') as ->. destruct TL as (t1 & t2 & ds & ST1 & SP1 & L1).
    apply ShowsText_str in ST1. rewrite ST1 in Et. subst t.
    pose proof (FontOf_fields _ _ _ HF FO') as Hff. pose proof (spacing_u8 _ _ HS Hff) as Hu. unfold u8 in Hu.
    destruct Hff as (_ & _ & _ & _ & Hcf & _).
    unfold span_width in H0. rewrite ST1 in H0. pose proof FO' as FO2. apply get_font_iff in FO2. rewrite FO2 in H0. cbn [try] in H0.
    rewrite (spacing_fonts _ _ _ FO') in H0. cbn [try] in H0.
    rewrite (text_width_panic g t1 t2 (Some (spacing_in s g)) ds) in H0; auto; cbn [spacing_of]; try lia. discriminate H0.
  - pose proof (FontOf_fun _ _ _ _ FO FO') as ->. apply ShowsText_str in ST, ST'. subst t' u.
    eapply spells_missing; eauto.
Qed.

Lemma width_font s w e : SpanWidth fonts s w -> SpanFault d s (Reported e) -> False.
Proof.
  intros (f & cs & (FO & t' & ST & SP) & EW) X. remember (Reported e) as r eqn:Er.
  destruct X as [e' X|g FO' TL|g u ds ch FO' _ ST' M].
  - exact (font_sound s f e' FO X).
  - discriminate Er.
  - pose proof (FontOf_fun _ _ _ _ FO FO') as ->. apply ShowsText_str in ST, ST'. subst t' u.
    eapply spells_missing; eauto.
Qed.

Lemma between_cause s p f e : FontOf fonts p f -> char_spacing_between s p fonts = Err e -> FontFault d s (Reported e).
Proof.
  intros J H. unfold char_spacing_between, char_spacing_fonts in H. apply get_font_iff in J.
  destruct (rs_char_spacing (span_state s)) as [n|]; [discriminate H|].
  destruct (rs_char_spacing (span_state p)) as [n|].
  - destruct (rs_get_font (span_state s) fonts) eqn:E; [discriminate H|]. injection H as <-. now apply font_cause.
  - rewrite J in H.
    destruct (rs_get_font (span_state s) fonts) eqn:E'; [discriminate H|]. injection H as <-. now apply font_cause.
Qed.

(** ** The two sides of a run *)

Lemma Sides_iff n l b a : Sides fonts n l b a <-> RunOffset fonts n None l b /\ Chain fonts None l (b + a).
Proof.
  unfold Sides. split; intros [H1 H2]; split; auto.
  - destruct H2 as [[-> ->]|H2]; [constructor|]. destruct l as [|s l]; [inversion H2|]. now apply RunWidth_chain.
  - destruct l as [|s l]; [left; inversion H2; auto|]. right. now apply RunWidth_chain.
Qed.

Lemma Sides_fun n l b a b' a' : Sides fonts n l b a -> Sides fonts n l b' a' -> b' = b /\ a' = a.
Proof.
  intros H K. apply Sides_iff in H as [H1 H2], K as [K1 K2].
  pose proof (RunOffset_fun _ _ _ _ _ _ H1 K1). pose proof (Chain_fun _ _ _ _ _ H2 K2). lia.
Qed.

Lemma RunOffset_app n : forall l p r b c, RunOffset fonts n p l b ->
  RunOffset fonts n (match rev l with [] => p | s :: _ => Some s end) r c -> RunOffset fonts n p (l ++ r) (b + c).
Proof.
  induction l as [|s l IH]; intros p r b c H K; cbn [app].
  - inversion H; subst. exact K.
  - apply RunOffset_inv in H as (g & w & v & G & W & R & ->). rewrite <- Z.add_assoc. apply RunOffset_cons; auto.
    apply IH; auto. cbn [rev] in K. destruct (rev l); exact K.
Qed.

Lemma Sides_snoc n l b a s g w : Sides fonts n l b a ->
  gap_to fonts (match rev l with [] => None | p :: _ => Some p end) s g -> SpanWidth fonts s w ->
  Sides fonts n (l ++ [s]) (b + ((if s_number s <=? n then g else 0) + (if s_number s <? n then w else 0)))
    (a + ((if s_number s <=? n then 0 else g) + (if s_number s <? n then 0 else w))).
Proof.
  intros H G W. apply Sides_iff in H as [H1 H2]. apply Sides_iff. split.
  - apply RunOffset_app; auto. rewrite <- (Z.add_0_r (_ + _)).
    apply (RunOffset_cons d _ n s [] g w 0); auto. constructor.
  - apply Chain_app. exists (b + a), (g + w + 0). splits; auto.
    + constructor; auto. constructor.
    + destruct (s_number s <=? n), (s_number s <? n); lia.
Qed.

Lemma rev_last {A} (l : list A) : match rev l with [] => l = [] | p :: _ => exists l', l = l' ++ [p] end.
Proof.
  destruct (rev l) as [|p r] eqn:E; apply (f_equal (@rev A)) in E; rewrite rev_involutive in E; cbn in E; subst; eauto.
Qed.

Lemma Chain_last l p v : Chain fonts None (l ++ [p]) v -> exists w, SpanWidth fonts p w.
Proof. intros H. apply Chain_app in H as (u & w & _ & H & _). apply Chain_inv in H as (g & x & y & _ & X & _). eauto. Qed.

Lemma hloop_out rs : forall l pre b a, Forall span_fields (pre ++ l) -> NoFault (RunFault d (rs_span rs)) pre ->
  Sides fonts (rs_span rs) pre b a -> 0 <= b < 65536 -> 0 <= a < 65536 ->
  outcome (offset_horiz_loop Debug fonts rs l (match rev pre with [] => None | p :: _ => Some p end) b a)
    (fun ba => NoFault (RunFault d (rs_span rs)) (pre ++ l) /\ Sides fonts (rs_span rs) (pre ++ l) (fst ba) (snd ba)
       /\ 0 <= fst ba < 65536 /\ 0 <= snd ba < 65536)
    (First (RunFault d (rs_span rs)) (pre ++ l)).
Proof.
  induction l as [|s r IH]; intros pre b a HL HN HD Hb Ha.
  { cbn. rewrite app_nil_r. auto. }
  pose proof HL as HL0. apply Forall_app in HL as [HP HL]. inversion HL as [|? ? HS HR]; subst. cbn [offset_horiz_loop].
  set (n := rs_span rs) in *. set (prev := match rev pre with [] => None | p :: _ => Some p end) in *.
  (* the space before the text *)
  assert (HG : outcome (match prev with
         | Some ps =>
             let? w := Val (char_spacing_between s ps fonts) in
             if rs_span (span_state s) <=? n then
               let! b := chk16 Debug (b + w) in Val (Ok (b, a))
             else
               let! a := chk16 Debug (a + w) in Val (Ok (b, a))
         | None => Val (Ok (b, a))
         end)
      (fun ba => ~ GapOver fonts n pre s /\ exists g, gap_to fonts prev s g /\ 0 <= g
          /\ ba = (b + (if s_number s <=? n then g else 0), a + (if s_number s <=? n then 0 else g))
          /\ fst ba < 65536 /\ snd ba < 65536)
      (RunFault d n pre s)).
  { pose proof (rev_last pre) as HLst. unfold prev. destruct (rev pre) as [|q ?].
    - subst pre. cbn. split.
      + intros (l' & p & g & _ & _ & E & _). destruct l'; discriminate E.
      + exists 0. splits; auto; [lia|destruct (_ <=? _); now rewrite !Z.add_0_r|lia|lia].
    - destruct HLst as (l' & ->). pose proof HD as HD'. apply Sides_iff in HD' as [_ HC].
      apply Chain_last in HC as (wq & Wq). apply SpanWidth_font in Wq as (fq & Fq).
      apply Forall_app in HP as [_ HQ]. inversion HQ as [|? ? HQ1 _]; subst.
      assert (GO : forall g, Gap fonts q s g -> GapOver fonts n (l' ++ [q]) s -> 65536 <= (if s_number s <=? n then b else a) + g).
      { intros g G (l2 & q2 & g2 & b2 & a2 & E & G2 & S2 & L2). apply app_inj_tail in E as [<- <-].
        pose proof (Gap_fun _ _ _ _ _ G G2). destruct (Sides_fun _ _ _ _ _ _ HD S2) as [-> ->]. subst g2. exact L2. }
      destruct (char_spacing_between s q fonts) as [g|e] eqn:EG; cbn [try].
      + apply (gap_iff fonts HF q s g fq HF HQ1 HS Fq) in EG. pose proof (Gap_u8 fonts HF _ _ _ HQ1 HS EG) as U. unfold u8 in U.
        change (rs_span (span_state s)) with (s_number s).
        destruct (s_number s <=? n) eqn:EL; (apply outcome_chk16; [lia| |]).
        * intros L. apply Rf_gap. exists l', q, g, b, a. rewrite EL. splits; auto.
        * intros L. cbn. split.
          -- intros O. apply (GO g EG) in O. rewrite ?EL in O. lia.
          -- exists g. splits; auto; try (f_equal; lia); cbn [fst snd]; lia.
        * intros L. apply Rf_gap. exists l', q, g, b, a. rewrite EL. splits; auto.
        * intros L. cbn. split.
          -- intros O. apply (GO g EG) in O. rewrite ?EL in O. lia.
          -- exists g. splits; auto; try (f_equal; lia); cbn [fst snd]; lia.
      + cbn. apply Rf_span; [|apply Sf_font; eapply between_cause; eauto].
        intros (l2 & q2 & g2 & b2 & a2 & E & G2 & S2 & L2). apply app_inj_tail in E as [<- <-].
        apply (gap_iff fonts HF q s g2 fq HF HQ1 HS Fq) in G2. congruence. }
  apply outcome_try with (G' := fun ba => ~ GapOver fonts n pre s /\ exists g, gap_to fonts prev s g /\ 0 <= g
          /\ ba = (b + (if s_number s <=? n then g else 0), a + (if s_number s <=? n then 0 else g))
          /\ fst ba < 65536 /\ snd ba < 65536).
  { eapply outcome_weak; [exact HG|auto|]. intros f X. now constructor. }
  intros ba _ (NG & g & G & Hg & -> & L1 & L2). cbn [fst snd] in L1, L2. clear HG.
  pose proof (width_out s HS) as HW.
  apply outcome_try with (G' := fun w => SpanWidth fonts s w /\ 0 <= w < 65536).
  { eapply outcome_weak; [exact HW|auto|]. intros f X. constructor; auto. now apply Rf_span. }
  intros w Ew (SW & Hw). pose proof (Sides_snoc n pre b a s g w HD G SW) as SN.
  change (rs_span (span_state s)) with (s_number s).
  assert (NF : forall b' a', Sides fonts n (pre ++ [s]) b' a' -> b' < 65536 -> a' < 65536 -> NoFault (RunFault d n) (pre ++ [s])).
  { intros b' a' SD Lb La. apply NoFault_snoc. split; auto. intros f [X|f' _ X|b2 a2 S2 L]; auto.
    - eapply span_sound; eauto.
    - destruct (Sides_fun _ _ _ _ _ _ SD S2) as [-> ->]. lia. }
  assert (GO : forall b' a', Sides fonts n (pre ++ [s]) b' a' -> 0 <= b' < 65536 -> 0 <= a' < 65536 ->
     outcome (offset_horiz_loop Debug fonts rs r (Some s) b' a')
       (fun ba => NoFault (RunFault d n) (pre ++ s :: r) /\ Sides fonts n (pre ++ s :: r) (fst ba) (snd ba)
          /\ 0 <= fst ba < 65536 /\ 0 <= snd ba < 65536)
       (First (RunFault d n) (pre ++ s :: r))).
  { intros b' a' SD Lb La. specialize (IH (pre ++ [s]) b' a'). rewrite rev_app_distr in IH. cbn [rev app] in IH.
    rewrite <- app_assoc in IH. cbn [app] in IH. apply IH; auto. apply (NF b' a'); auto; lia. }
  assert (OV : forall b' a', Sides fonts n (pre ++ [s]) b' a' -> 65536 <= b' \/ 65536 <= a' ->
     First (RunFault d n) (pre ++ s :: r) (Overflow None)).
  { intros b' a' SD L. constructor; auto. eapply Rf_side; eauto. }
  destruct (s_number s <? n) eqn:EN.
  - assert (EL : (s_number s <=? n) = true) by lia. rewrite EL in *.
    replace (b + g + w) with (b + (g + w)) by lia.
    apply outcome_chk16; [lia| |]; intros L.
    + eapply OV; [exact SN|lia].
    + apply GO; [|lia|lia]. replace (a + 0) with (a + (0 + 0)) by lia. exact SN.
  - apply outcome_chk16; [destruct (_ <=? _); lia| |]; intros L.
    + eapply OV; [exact SN|]. destruct (_ <=? _); lia.
    + apply GO; [|destruct (_ <=? _); lia|destruct (_ <=? _); lia].
      match type of SN with Sides _ _ _ ?x ?y => match goal with |- Sides _ _ _ ?u ?v =>
        replace u with x by lia; replace v with y by lia end end. exact SN.
Qed.

Lemma RunWidth_none l v : RunWidth fonts l v -> l <> [].
Proof. intros H ->. inversion H. Qed.

(** The place of a text in its run, or why it has none. *)
Lemma horiz_out all s : Forall span_fields all -> In s all -> can_x (s_jl s) -> rect_fits (s_rect s) ->
  outcome (offset_horiz Debug d all s)
    (fun ba => exists w, RunSet d all s w /\ w <= rwidth (s_rect s)) (SpanFails d all s).
Proof.
  intros HS I CX RF. unfold offset_horiz. fold (run_of all s).
  pose proof (run_of_fields all s HS) as HR.
  pose proof (hloop_out (span_state s) (run_of all s) [] 0 0) as HO. cbn [rev app] in HO.
  apply outcome_try with (G' := fun ba => NoFault (RunFault d (s_number s)) (run_of all s)
     /\ Sides fonts (s_number s) (run_of all s) (fst ba) (snd ba) /\ 0 <= fst ba < 65536 /\ 0 <= snd ba < 65536).
  { eapply outcome_weak; [apply HO; auto; try lia; [apply NoFault_nil|split; [constructor|auto]]|auto|].
    intros f X. eapply Sp_run; eauto. now apply run_of_picked. }
  intros [b a] _ (NF & SD & Hb & Ha). cbn [fst snd] in *.
  assert (RS : RunSet d all s (b + a)).
  { split; auto. exists (run_of all s). splits; auto; [now apply run_of_picked|].
    destruct SD as [_ [[E _]|RW]]; auto. pose proof (run_of_self all s I) as J. rewrite E in J. destruct J. }
  apply outcome_chk16; [lia| |]; intros L.
  - replace (Overflow None) with (too_big (b + a)) by (unfold too_big; destruct (Z.ltb_spec (b + a) 65536); [lia|auto]).
    apply Sp_wide; auto. unfold rect_fits in RF. lia.
  - cbn. change (rwidth (rs_rect (span_state s))) with (rwidth (s_rect s)).
    destruct (Z.leb_spec (b + a) (rwidth (s_rect s))) as [LE|LE]; [eauto|].
    replace (Reported STextTooBig) with (too_big (b + a)) by (unfold too_big; destruct (Z.ltb_spec (b + a) 65536); [auto|lia]).
    now apply Sp_wide.
Qed.

Lemma jl_cases j : can_x j \/ j = JlOther \/ j = JlFull.
Proof. unfold can_x. destruct j; auto. Qed.
Lemma jp_cases j : can_y j \/ j = JpOther.
Proof. unfold can_y. destruct j; auto. Qed.

Hypothesis HC : vms_fields (d_vms_cfg d).

Lemma chk16_in z : 0 <= z < 65536 -> chk16 Debug z = Val z.
Proof. intros H. unfold chk16. apply chk_in. lia. Qed.

Lemma x_out all s : Forall span_fields all -> In s all -> rect_fits (s_rect s) ->
  fate (span_x Debug d all s) (span_x Release d all s) (fun x => exists w, RunSet d all s w /\ w <= rwidth (s_rect s)) (SpanFails d all s).
Proof.
  intros HS I RF. destruct (jl_cases (s_jl s)) as [CX|JX].
  2:{ unfold span_x. fold (s_jl s). destruct JX as [E|E]; rewrite E; cbn; right; left; (split; [apply Sp_side; auto|reflexivity]). }
  pose proof (horiz_out all s HS I CX RF) as HO.
  destruct (offset_horiz Debug d all s) as [[[b a]|e]| |] eqn:EH; cbn in HO.
  - destruct (horiz_ok d HF all s b a HS I EH) as (_ & Hb & Ha & L & _).
    destruct (span_x_calc d all s b a) as (x & Ex & _); auto; [destruct HC as (_ & H & _); unfold u8 in H; lia|].
    rewrite Ex. exact HO.
  - assert (EL : chk16 Debug (rx (rs_rect (span_state s)) - 1) = Val (rx (rs_rect (span_state s)) - 1))
      by (unfold rect_fits, s_rect in RF; apply chk16_in; lia).
    unfold span_x. fold (s_jl s).
    destruct CX as [E|[E|E]]; rewrite E; unfold span_x_left, span_x_center, span_x_right; rewrite EL; cbn [bind]; cbv zeta; rewrite EH; cbn; auto.
  - assert (EL : chk16 Debug (rx (rs_rect (span_state s)) - 1) = Val (rx (rs_rect (span_state s)) - 1))
      by (unfold rect_fits, s_rect in RF; apply chk16_in; lia).
    unfold span_x. fold (s_jl s).
    destruct CX as [E|[E|E]]; rewrite E; unfold span_x_left, span_x_center, span_x_right; rewrite EL; cbn [bind]; cbv zeta; rewrite EH; cbn; auto.
  - destruct HO.
Qed.

Lemma collect_out : forall l ls,
  match collect_lines fonts l ls with
  | Ok _ => NoFault (fun _ => FontFault d) l
  | Err e => First (fun _ => FontFault d) l (Reported e)
  end.
Proof.
  induction l as [|s r IH]; intros ls; cbn [collect_lines]; [apply NoFault_nil|].
  unfold span_height, span_font_spacing.
  destruct (rs_get_font (span_state s) fonts) as [f|e'] eqn:E.
  - apply get_font_iff in E. pose proof (font_sound s f) as NS.
    assert (X : forall ls', match collect_lines fonts r ls' with
       | Ok _ => NoFault (fun _ => FontFault d) (s :: r) | Err e => First (fun _ => FontFault d) (s :: r) (Reported e) end).
    { intros ls'. specialize (IH ls'). destruct (collect_lines fonts r ls') as [o|e].
      - apply NoFault_each. intros x g [<-|J]; [now apply NS|]. rewrite NoFault_each in IH. now apply IH.
      - remember (Reported e) as g. destruct IH as [a x b g N H]. apply (First_at (fun _ => FontFault d) (s :: a) x b); auto.
        apply NoFault_each. intros y h [<-|J]; [now apply NS|]. rewrite NoFault_each in N. now apply N. }
    destruct (_ <=? _); apply X.
  - apply (First_at (fun _ => FontFault d) [] s r); [apply NoFault_nil|]. now apply font_cause.
Qed.

Lemma vloop_over full sln : forall ls p ln a b, Forall tl_ok ls -> opt_ok p -> 0 <= a < 65536 -> 0 <= b < 65536 ->
  (exists a' b', offset_vert_loop Debug full sln ls p ln a b = Val (a', b') /\ 0 <= a' < 65536 /\ 0 <= b' < 65536)
  \/ (offset_vert_loop Debug full sln ls p ln a b = Panic /\ 65536 <= a + b + stackf full p ls).
Proof.
  induction ls as [|l ls IH]; intros p ln a b HL HP Ha Hb; cbn [offset_vert_loop stackf].
  { left. eauto. }
  inversion HL as [|? ? H1 H2]; subst. pose proof (lead_u8 full p l HP H1) as UL. unfold u8 in UL.
  assert (HP' : opt_ok (Some l)) by (intros ? [= <-]; auto).
  pose proof (stackf_nonneg full ls (Some l) H2 HP') as NN.
  pose proof H1 as (UH & _). unfold u8 in UH.
  assert (E : (match p with
         | Some p =>
             if full then
               if ln <=? sln then let! a := chk16 Debug (a + line_spacing l p) in Val (a, b)
               else let! b := chk16 Debug (b + line_spacing l p) in Val (a, b)
             else Val (a, b)
         | None => Val (a, b)
         end) = if ln <=? sln then let! a := chk16 Debug (a + lead full p l) in Val (a, b)
               else let! b := chk16 Debug (b + lead full p l) in Val (a, b)).
  { unfold lead. destruct p as [p|].
    - destruct full; [reflexivity|]. rewrite !Z.add_0_r, !chk16_in by lia. now destruct (ln <=? sln).
    - rewrite !Z.add_0_r, !chk16_in by lia. now destruct (ln <=? sln). }
  rewrite E. clear E. set (g := lead full p l) in *. set (h := tl_height l) in *.
  destruct (ln <=? sln).
  - destruct (Z_lt_ge_dec (a + g) 65536) as [L1|L1].
    2:{ right. unfold chk16. rewrite (proj2 (chk_debug _ (a + g))) by lia. cbn [bind]. split; auto. lia. }
    rewrite chk16_in by lia. cbn [bind].
    destruct (Z_lt_ge_dec (a + g + h) 65536) as [L2|L2].
    2:{ right. unfold chk16. rewrite (proj2 (chk_debug _ (a + g + h))) by lia. cbn [bind]. split; auto. lia. }
    rewrite chk16_in by lia. cbn [bind].
    destruct (IH (Some l) (ln + 1) (a + g + h) b) as [X|[X Y]]; auto; try lia. right. split; auto. lia.
  - destruct (Z_lt_ge_dec (b + g) 65536) as [L1|L1].
    2:{ right. unfold chk16. rewrite (proj2 (chk_debug _ (b + g))) by lia. cbn [bind]. split; auto. lia. }
    rewrite chk16_in by lia. cbn [bind].
    destruct (Z_lt_ge_dec (b + g + h) 65536) as [L2|L2].
    2:{ right. unfold chk16. rewrite (proj2 (chk_debug _ (b + g + h))) by lia. cbn [bind]. split; auto. lia. }
    rewrite chk16_in by lia. cbn [bind].
    destruct (IH (Some l) (ln + 1) a (b + g + h)) as [X|[X Y]]; auto; try lia. right. split; auto. lia.
Qed.

(** The place of a line in its block, or why it has none. *)
Lemma vert_out all s w : Forall span_fields all -> In s all -> rect_fits (s_rect s) ->
  RunSet d all s w -> w <= rwidth (s_rect s) -> can_y (s_jp s) ->
  outcome (offset_vert Debug d all s) (fun _ => exists h, BlockSet d all s h /\ h <= rheight (s_rect s)) (SpanFails d all s).
Proof.
  intros HS I RF HR HW CY. unfold offset_vert. fold (block_of all s).
  pose proof (collect_out (block_of all s) []) as CO.
  destruct (collect_lines fonts (block_of all s) []) as [ts|e] eqn:E; cbn [try].
  2:{ cbn. eapply Sp_block; eauto. apply block_picked. }
  destruct (block_counted d HF all s ts HS E) as (ls & B & C & R & T).
  assert (HSt : StackHeight d ls (stackf (char_height d =? 0) None ts)) by (now apply (StackHeight_iff d ls ts R T)).
  assert (BS : BlockSet d all s (stackf (char_height d =? 0) None ts)).
  { split; auto. exists (block_of all s), ls. splits; auto. }
  assert (BIG : 65536 <= stackf (char_height d =? 0) None ts -> SpanFails d all s (Overflow None)).
  { intros L. replace (Overflow None) with (too_big (stackf (char_height d =? 0) None ts))
      by (unfold too_big; destruct (Z.ltb_spec (stackf (char_height d =? 0) None ts) 65536); [lia|auto]).
    eapply Sp_high; eauto. unfold rect_fits in RF. lia. }
  destruct (vloop_over (char_height d =? 0) (rs_line (span_state s)) ts None 0 0 0 T) as [(a & b & EV & Ha & Hb)|[EV L]];
    try lia; [intros ? X; discriminate X| |].
  2:{ rewrite EV. cbn. apply BIG. lia. }
  rewrite EV. cbn [bind].
  apply (vloop_inv _ _ _ _ _ _ _ _ _ T) in EV; [|intros ? E'; discriminate E'].
  cbv zeta in EV. destruct EV as (_ & EV). rewrite Z.add_0_l in EV. 
  apply outcome_chk16; [lia| |]; intros L.
  { apply BIG. lia. }
  cbn. change (rheight (rs_rect (span_state s))) with (rheight (s_rect s)). rewrite EV in *.
  destruct (Z.leb_spec (stackf (char_height d =? 0) None ts) (rheight (s_rect s))) as [LE|LE]; [eauto|].
  replace (Reported STextTooBig) with (too_big (stackf (char_height d =? 0) None ts))
    by (unfold too_big; destruct (Z.ltb_spec (stackf (char_height d =? 0) None ts) 65536); [auto|lia]).
  eapply Sp_high; eauto.
Qed.

Lemma agree_baseline all s : agree (baseline Debug d all s) (baseline Release d all s).
Proof. unfold baseline, baseline_top, baseline_middle, baseline_bottom. agr. all: apply agree_offset_vert. Qed.

Lemma y_out all s w : Forall span_fields all -> In s all -> rect_fits (s_rect s) ->
  RunSet d all s w -> w <= rwidth (s_rect s) ->
  fate (span_y Debug d all s) (span_y Release d all s)
    (fun y => exists h, BlockSet d all s h /\ h <= rheight (s_rect s) /\ AtY d all s y /\ 0 <= y) (SpanFails d all s)
  \/ exists h y, BlockSet d all s h /\ h <= rheight (s_rect s) /\ AtY d all s y /\ -256 < y < 0
       /\ span_y Debug d all s = Panic /\ span_y Release d all s = Val (Ok (y + 65536)).
Proof.
  intros HS I RF HR HW.
  destruct (jp_cases (s_jp s)) as [CY|JY].
  2:{ unfold span_y, baseline. fold (s_jp s). rewrite JY. left. cbn. right. left. split; [eapply Sp_row; eauto|reflexivity]. }
  pose proof (vert_out all s w HS I RF HR HW CY) as HO.
  assert (EL : chk16 Debug (ry (rs_rect (span_state s)) - 1) = Val (ry (rs_rect (span_state s)) - 1))
    by (unfold rect_fits, s_rect in RF; apply chk16_in; lia).
  assert (HCH : 0 <= char_height_pixels (d_vms_cfg d)) by (destruct HC as (H & _); unfold u8 in H; lia).
  destruct (offset_vert Debug d all s) as [[[a b]|e]| |] eqn:EH; cbn in HO.
  - destruct HO as (h & BS & Lh).
    destruct (vert_ok d HF all s a b HS I EH) as (ts & CT & T & Ea & Eab & Ha & Hb & L & L2 & h' & Hh' & Hle).
    destruct (baseline_calc d all s a b) as (bl & Ebl & PY); auto.
    pose proof (HeightOf_u8 fonts HF _ _ Hh') as U. unfold u8 in U.
    unfold span_y. rewrite Ebl, (agree_baseline all s _ Ebl). cbn [try]. pose proof Hh' as Hh2. apply span_height_iff in Hh'. rewrite Hh'. cbn [try].
    destruct (block_counted d HF all s ts HS CT) as (ls & PB & BL & R & T').
    assert (AY : AtY d all s (bl - h')).
    { exists (block_of all s), ls, a, (a + b), bl, h'. splits; auto.
      - apply (StackHeight_iff d _ (firstn (Z.to_nat (s_line s + 1)) ts)); auto.
        + clear - R. generalize (Z.to_nat (s_line s + 1)). intros n. revert n. induction R; intros [|n]; cbn; auto.
        + clear - T. generalize (Z.to_nat (s_line s + 1)). intros n. revert n. induction T; intros [|n]; cbn; auto.
      - now apply (StackHeight_iff d ls ts R T). }
    assert (HB : 0 <= bl < 65536).
    { clear - PY RF Ha Hb L HCH. unfold rect_fits in RF. unfold place_y in PY.
      destruct (s_jp s); try contradiction; try lia.
      pose proof (cell_range (char_height_pixels (d_vms_cfg d)) (ry (s_rect s) - 1 + (rheight (s_rect s) - (a + b)) / 2 + a)). lia. }
    destruct (Z_lt_ge_dec (bl - h') 0) as [N|N].
    + right. exists h, (bl - h'). unfold chk16. rewrite (proj2 (chk_debug _ _)) by lia. unfold chk. rewrite (proj2 (Z.leb_gt _ _)) by lia. cbn. splits; auto; try lia.
      do 2 f_equal. symmetry. apply (Z.mod_unique _ _ (-1)); lia.
    + left. rewrite chk16_in by lia. cbn. exists h. splits; auto. lia.
  - left. unfold span_y, baseline. fold (s_jp s).
    destruct CY as [E|[E|E]]; rewrite E; unfold baseline_top, baseline_middle, baseline_bottom; rewrite EL; cbn [bind]; cbv zeta; rewrite EH; cbn; auto.
  - left. unfold span_y, baseline. fold (s_jp s).
    destruct CY as [E|[E|E]]; rewrite E; unfold baseline_top, baseline_middle, baseline_bottom; rewrite EL; cbn [bind]; cbv zeta; rewrite EH; cbn; auto.
  - destruct HO.
Qed.

Lemma RunSet_fun all s v w : RunSet d all s v -> RunSet d all s w -> v = w.
Proof.
  intros (_ & run & P & _ & R) (_ & run' & P' & _ & R'). pose proof (Picked_fun _ _ _ _ P P') as <-. exact (RunWidth_fun _ _ _ _ R R').
Qed.

Lemma BlockSet_fun all s v w : BlockSet d all s v -> BlockSet d all s w -> v = w.
Proof.
  intros (_ & bl & ls & P & _ & C & R) (_ & bl' & ls' & P' & _ & C' & R').
  pose proof (Picked_fun _ _ _ _ P P') as <-. pose proof (counted_fun _ _ C _ C') as <-. exact (StackHeight_fun d _ _ _ R R').
Qed.

(** A span that is placed and drawn. *)
Definition span_placed (all : list Span) (s : Span) : Prop :=
  exists w h x y, RunSet d all s w /\ w <= rwidth (s_rect s) /\ BlockSet d all s h /\ h <= rheight (s_rect s)
    /\ AtX d all s x /\ AtY d all s y /\ 0 <= y
    /\ forall f cs px py, SetWith (d_fonts d) s f cs -> InkText (spacing_in s f) (f_height f) cs x y px py -> SignPixel d px py.

Lemma placed_sound all s : span_placed all s -> forall f, ~ SpanFails d all s f.
Proof.
  intros (w & h & x & y & HR & HW & HB & HH & HX & HY & Hy & HI) f H.
  pose proof HR as (CX & run & PR & NR & _). pose proof HB as (CY & bl & ls & PB & NB & _).
  destruct H as [E|run' f _ PK HX'|w' R L|w' _ _ E|w' bl' f _ _ _ PK HX'|w' h' _ _ B L|w' h' x' y' g cs _ _ _ _ X Y L _ _
    |w' h' x' y' g cs px py _ _ _ _ X Y L _ _ _|w' h' x' y' g cs px py _ _ _ _ X Y _ HS IN N].
  - destruct CX as [C|[C|C]], E as [E|E]; congruence.
  - pose proof (Picked_fun _ _ _ _ PR PK) as <-. exact (First_not _ _ _ HX' NR).
  - pose proof (RunSet_fun _ _ _ _ HR R). lia.
  - destruct CY as [C|[C|C]]; congruence.
  - pose proof (Picked_fun _ _ _ _ PB PK) as <-. exact (First_not _ _ _ HX' NB).
  - pose proof (BlockSet_fun _ _ _ _ HB B). lia.
  - pose proof (at_y_fun _ _ _ _ _ HY Y). lia.
  - pose proof (at_y_fun _ _ _ _ _ HY Y). lia.
  - pose proof (at_x_fun _ _ _ _ _ HX X) as <-. pose proof (at_y_fun _ _ _ _ _ HY Y) as <-. apply N. eapply HI; eauto.
Qed.

Hypothesis HV : valid_fonts (d_fonts d).

Lemma agree_span_render_text s p f x y : agree (span_render_text Debug s p f x y) (span_render_text Release s p f x y).
Proof. unfold span_render_text. agr. apply agree_render_text. Qed.

(** Drawing from a row that has wrapped around. *)
Lemma draw_wrapped all s x y p : Forall span_fields all -> In s all -> SpanOn p s -> raster_small p ->
  span_x Debug d all s = Val (Ok x) -> 0 <= y < 65536 ->
  exists f cs, SetWith fonts s f cs /\ rs_get_font (span_state s) fonts = Ok f
    /\ ((forall px py, InkText (spacing_in s f) (f_height f) cs x y px py -> on_raster p px py)
        \/ exists px py, InkText (spacing_in s f) (f_height f) cs x y px py /\ ~ on_raster p px py
             /\ span_render_text Release s p f x y = Panic).
Proof.
  intros HS I (HR & HO) Hsm Hx Hy.
  destruct (span_x_ok d HF HC all s x HS I HR Hx) as (w & (f & cs & HSet & Ew) & X0 & X2 & X1 & X3).
  pose proof HSet as (Hf & t & Ht & Hsp).
  assert (Fs : span_fields s) by (rewrite Forall_forall in HS; auto).
  pose proof (FontOf_fields _ _ _ HF Hf) as Hff. pose proof (spacing_u8 s f Fs Hff) as Us. unfold u8 in Us.
  pose proof Fs as (_ & _ & _ & _ & t' & Ht' & Hz).
  assert (t' = t) as -> by (apply ShowsText_str in Ht, Ht'; congruence).
  assert (W : Forall (fun c => 0 <= c) (map c_width cs)).
  { apply (widths_nonneg f t); auto. apply Hff. }
  destruct HR as (F1 & F2 & F3 & F4 & F5 & F6).
  assert (Lw : 0 <= line_width (spacing_in s f) (map c_width cs)).
  { rewrite <- line_width_fold by (auto; lia). apply acc_mono; auto; lia. }
  exists f, cs. splits; auto; [now apply get_font_iff|].
  destruct (render_text_exact Release f p t x y (spacing_in s f) (foreground_rgb (rs_ctx (span_state s))) cs)
    as [(q & Eq & PQ & ON)|(Eq & px & py & I1 & I2)]; auto; try lia.
  right. exists px, py. splits; auto. unfold span_render_text. rewrite (ShowsText_str s t Ht).
  change (map_err from_font_error (font_render_text Release f p t x y (spacing_in s f) (foreground_rgb (rs_ctx (span_state s)))) = Panic).
  rewrite Eq. reflexivity.
Qed.

Lemma spans_out all : Forall span_fields all -> forall todo p, incl todo all ->
  (forall s, In s todo -> SpanOn p s) -> raster_small p -> SignSized d p ->
  fate (render_spans_loop Debug d all todo p) (render_spans_loop Release d all todo p)
    (fun _ => forall s, In s todo -> span_placed all s)
    (First (fun _ => SpanFails d all) todo).
Proof.
  intros HS. induction todo as [|s r IH]; intros p HI HO HR HZ; [cbn; intros ? []|].
  cbn [render_spans_loop]. assert (I : In s all) by (apply HI; cbn; auto).
  pose proof (HO s (or_introl eq_refl)) as HOs. pose proof HOs as (RF & _).
  assert (HERE : forall f, SpanFails d all s f -> First (fun _ => SpanFails d all) (s :: r) f).
  { intros f H. apply (First_at (fun _ => SpanFails d all) [] s r); auto. apply NoFault_nil. }
  apply fate_try with (G' := fun _ => exists w, RunSet d all s w /\ w <= rwidth (s_rect s)); [apply agree_span_x| |].
  { eapply fate_weak; [apply (x_out all s HS I RF)|intros a X; exact X|exact HERE]. }
  intros x Ex (w & RS & LW).
  assert (AX : AtX d all s x).
  { apply at_x; auto. destruct HC as (_ & Uc & _). unfold u8 in Uc. lia. }
  assert (ON : forall px py, on_raster p px py <-> SignPixel d px py).
  { intros px py. destruct HZ as [Z1 Z2]. unfold on_raster, SignPixel. rewrite Z1, Z2. tauto. }
  destruct (y_out all s w HS I RF RS LW) as [YO|(h & y & BS & LH & AY & Hy & Ey & Ey')].
  2:{ rewrite Ey, Ey'. cbn [try].
      destruct (draw_wrapped all s x (y + 65536) p HS I HOs HR Ex ltac:(lia)) as (f & cs & HW & Ef & [N|(px & py & IN & N & EP)]).
      - cbn. left. apply HERE. eapply Sp_above; eauto; [lia|]. intros px py IN. apply ON. eauto.
      - rewrite Ef. cbn [try]. rewrite EP. cbn. right. left. split; [|reflexivity]. apply HERE. rewrite ON in N.
        eapply Sp_over; eauto. lia. }
  apply fate_try with (G' := fun y => exists h, BlockSet d all s h /\ h <= rheight (s_rect s) /\ AtY d all s y /\ 0 <= y); [apply agree_span_y| |].
  { eapply fate_weak; [exact YO|intros a X; exact X|exact HERE]. }
  intros y Ey (h & BS & LH & AY & Hy).
  destruct (draw_span d HF HV HC all s x y p HS I HOs HR Ex Ey)
    as (f & cs & HW & Ef & [(q & Er & (P1 & P2 & _) & HIn)|(Er & Er' & px & py & HIn & N)] & _);
    rewrite Ef; cbn [try]; rewrite Er; cbn [try].
  2:{ rewrite Er'. cbn. right. left. split; [|reflexivity]. apply HERE. rewrite ON in N. eapply Sp_off; eauto. }
  assert (HPL : span_placed all s).
  { exists w, h, x, y. splits; auto. intros g ds px py HW' IN. apply ON, HIn.
    destruct (set_with_fun _ _ _ _ _ _ HW HW') as [<- <-]. exact IN. }
  rewrite (agree_span_render_text _ _ _ _ _ _ Er). cbn [try].
  eapply fate_weak; [apply IH| |].
  - intros t It. apply HI. cbn; auto.
  - intros t It. apply (SpanOn_size p q); auto. apply HO. cbn; auto.
  - destruct HR as [H1 H2]. unfold raster_small. rewrite P1, P2. auto.
  - destruct HZ as [Z1 Z2]. split; congruence.
  - intros m X t [<-|It]; auto.
  - intros g X. destruct X as [a t b g N X]. apply (First_at (fun _ => SpanFails d all) (s :: a) t b); auto.
    apply NoFault_each. intros u k [<-|J]; [now apply placed_sound|]. rewrite NoFault_each in N. now apply N.
Qed.

Lemma spans_sound all : (forall s, In s all -> span_placed all s) -> forall f, ~ First (fun _ => SpanFails d all) all f.
Proof.
  intros H f X. apply First_in in X as (s & I & X). exact (placed_sound all s (H s I) f X).
Qed.

Lemma chain_in : forall l p v, Chain fonts p l v -> forall t, In t l -> exists w, SpanWidth fonts t w.
Proof.
  induction l as [|s l IH]; intros p v H t I; [destruct I|]. apply Chain_inv in H as (g & w & u & _ & HW & HCh & _).
  destruct I as [<-|I]; eauto.
Qed.

Lemma spans_clean all : ~ OutOfOrder all -> (forall s, In s all -> span_placed all s) -> forall e, ~ TextFault d all e.
Proof.
  intros HN H e T.
  assert (HX : forall s e, In s all -> ~ SpanFault d s (Reported e)).
  { intros s e' I X. destruct (H s I) as (w & h & x & y & (_ & run & PR & _ & RW) & _).
    pose proof (proj1 (run_of_picked _ _ _) PR) as ->.
    apply RunWidth_run in RW; auto. destruct (chain_in _ _ _ RW s) as (v & SW); [now apply run_of_self|]. exact (width_font s v e' SW X). }
  destruct T as [O|s I N|s f k I F V N|s f t cs ch I F ST M|s I W|s I W].
  - auto.
  - eapply (HX s); auto. apply Sf_font. now apply Ff_missing.
  - eapply (HX s); auto. apply Sf_font. eapply Ff_version; eauto.
  - destruct (H s I) as (w & h & x & y & (_ & run & PR & _ & RW) & _).
    pose proof (proj1 (run_of_picked _ _ _) PR) as ->.
    apply RunWidth_run in RW; auto. destruct (chain_in _ _ _ RW s) as (v & (f' & ds & (FO & t' & ST' & SP) & _)); [now apply run_of_self|].
    pose proof (FontOf_fun _ _ _ _ F FO) as ->. apply ShowsText_str in ST, ST'. subst t t'. eapply spells_missing; eauto.
  - destruct (H s I) as (w & h & x & y & (_ & run & PR & _ & RW) & L & _). destruct W as (run' & w' & PR' & RW' & L').
    pose proof (Picked_fun _ _ _ _ PR PR') as <-. pose proof (RunWidth_fun _ _ _ _ RW RW'). lia.
  - destruct (H s I) as (w & h & x & y & _ & _ & (_ & bl & ls & PB & _ & CN & SH) & L & _).
    destruct W as (bl' & ls' & h' & PB' & CN' & SH' & L').
    pose proof (Picked_fun _ _ _ _ PB PB') as <-. pose proof (counted_fun _ _ CN _ CN') as <-.
    pose proof (StackHeight_fun d _ _ _ SH SH'). lia.
Qed.
End Text.

(** The text of a text rectangle is drawn, or there is a fault in it. *)
Lemma text_out d spans p : Built d -> Forall span_fields spans -> (forall s, In s spans -> SpanOn p s) -> raster_small p -> SignSized d p ->
  fate (render_text_spans Debug d spans p) (render_text_spans Release d spans p)
    (fun _ => (forall e, ~ TextFault d spans e) /\ forall f, ~ TextFails d spans f) (TextFails d spans).
Proof.
  intros HB HS HO HR HZ. destruct (Built_parts d HB) as (HF & HV & HC).
  unfold render_text_spans. destruct (check_justification_cases spans) as [[E O]|[E O]]; rewrite E; cbn [try].
  - eapply fate_weak; [apply (spans_out d HF HC HV spans HS spans p); auto; apply incl_refl| |].
    + intros q H. split; [now apply (spans_clean d)|]. intros f [O'|f' _ X]; auto. exact (spans_sound d spans H f' X).
    + intros f H. now apply Tf_span.
  - cbn. now apply Tf_order.
Qed.

(** What is reported is wrong. *)
Lemma fails_fault d spans e : TextFails d spans (Reported e) -> TextFault d spans e.
Proof.
  assert (HFF : forall s e, In s spans -> FontFault d s (Reported e) -> TextFault d spans e).
  { intros s e' I X. remember (Reported e') as r eqn:Er. destruct X as [N|f k F V N]; injection Er as <-; [now apply Tx_font|eapply Tx_version; eauto]. }
  assert (BIG : forall n e', too_big n = Reported e' -> e' = STextTooBig).
  { intros n e'. unfold too_big. destruct (n <? 65536); [intros [= <-]; auto|discriminate]. }
  intros X. remember (Reported e) as r eqn:Er. destruct X as [O|f _ H]; [injection Er as <-; now apply Tx_order|]. subst f.
  apply First_in in H as (s & I & H). remember (Reported e) as r eqn:Er.
  destruct H as [_|run f _ PK HX|w R L|w _ _ _|w bl f _ _ _ PK HX|w h _ _ B L|? ? ? ? ? ? _ _ _ _ _ _ _ _ _|? ? ? ? ? ? ? ? _ _ _ _ _ _ _ _ _ _
    |? ? ? ? ? ? ? ? _ _ _ _ _ _ _ _ _ _]; try discriminate Er.
  - subst f. remember (Reported e) as r eqn:Er. destruct HX as [a t b f _ HX]. subst f.
    assert (It : In t spans) by (apply (Picked_in _ spans _ t PK); apply in_elt).
    remember (Reported e) as r eqn:Er. destruct HX as [_|f _ HX|b' a' _ _]; try discriminate Er. subst f.
    remember (Reported e) as r eqn:Er. destruct HX as [f HX|f FO _|f u cs ch H1 _ H2 H3]; try discriminate Er.
    + subst f. eapply HFF; eauto.
    + injection Er as <-. eapply Tx_char; eauto.
  - apply BIG in Er as ->. destruct R as (_ & run & PK & _ & RW). eapply Tx_wide; eauto. exists run, w. splits; auto.
  - subst f. apply First_in in HX as (t & It & HX). apply (Picked_in _ spans _ t PK) in It as [It _]. eapply HFF; eauto.
  - apply BIG in Er as ->. destruct B as (_ & bl & ls & PK & _ & CN & SH). eapply Tx_tall; eauto. exists bl, ls, h. splits; auto.
Qed.
