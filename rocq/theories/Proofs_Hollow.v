(** Text rectangles without text may be left out. *)

From Coq Require Import String Lia.
From Verif Require Import Base Str Multi Color Raster Font Graphic Config Sign Render
  Spec_Multi Spec_Color Spec_Sign Spec_Render Spec_Page Spec_Hollow
  Proofs_Str Proofs_Split Proofs_Norm Proofs_Sign Proofs_Iter Proofs_Machine Proofs_Pages Proofs_Page Proofs_Fail Proofs_Follow.
Open Scope list_scope.

Section Sign.
Variables (md : mode) (d : Dms).
Notation rg vs ctx p := (render_graphics_loop md d (bare (okv vs)) ctx p).
Notation rtr po vs rs sp lb := (a_rtr md d (rs_new d) po (okv vs) rs sp lb).

(** Whether a colour may be set depends on these only. *)
Definition kin (c c' : ColorCtx) : Prop :=
  color_scheme c = color_scheme c' /\ fg_default c = fg_default c' /\ bg_default c = bg_default c'.

Lemma kin_refl c : kin c c.
Proof. unfold kin. auto. Qed.

Lemma kin_trans a b c : kin a b -> kin b c -> kin a c.
Proof. unfold kin. intuition congruence. Qed.

Lemma kin_sym a b : kin a b -> kin b a.
Proof. unfold kin. intuition congruence. Qed.

Lemma kin_rgb a b c : kin a b -> ctx_rgb a c = ctx_rgb b c.
Proof. intros (A & B & C). unfold ctx_rgb, rgb_monochrome_1, rgb_monochrome_8. rewrite A, B, C. reflexivity. Qed.

Lemma kin_fg a a' c v : kin a a' -> snd (set_foreground a c v) = snd (set_foreground a' c v) /\ kin a (fst (set_foreground a c v)) /\ kin a' (fst (set_foreground a' c v)).
Proof.
  intros K. unfold set_foreground. destruct c as [c|]; [rewrite (kin_rgb _ _ c K); destruct (ctx_rgb a' c)|]; cbn; splits; auto using kin_refl; unfold kin; auto.
Qed.

Lemma kin_bg a a' c v : kin a a' -> snd (set_background a c v) = snd (set_background a' c v) /\ kin a (fst (set_background a c v)) /\ kin a' (fst (set_background a' c v)).
Proof.
  intros K. unfold set_background. destruct c as [c|]; [rewrite (kin_rgb _ _ c K); destruct (ctx_rgb a' c)|]; cbn; splits; auto using kin_refl; unfold kin; auto.
Qed.

(** ** Pictures *)

Lemma graphics_hollow s : Forall hollow s -> forall r b ctx p q, rg (s ++ VTextRectangle r :: b) ctx p = Val (Ok q) ->
  q = p /\ forall ctx' p', kin ctx ctx' -> rg (s ++ VTextRectangle r :: b) ctx' p' = Val (Ok p').
Proof.
  induction 1 as [|v s HV HS IH]; intros r b ctx p q H.
  - cbn in H. injection H as <-. split; [auto|]. intros. reflexivity.
  - destruct v; try contradiction HV; cbn [app okv map bare render_graphics_loop try] in *; try discriminate H;
      try (destruct (IH _ _ _ _ _ H) as [-> K]; split; [reflexivity|]; intros ctx' p' HK; now apply K).
    + destruct (set_background ctx _ _) as [c0 w] eqn:E. destruct w as [u|e]; cbn [try] in H; [|discriminate H]. destruct (IH _ _ _ _ _ H) as [-> K]. split; [reflexivity|].
      intros ctx' p' HK. pose proof (kin_bg ctx ctx' c (VColorBackground c) HK) as (S & K1 & K2). rewrite E in *. destruct (set_background ctx' _ _) as [c1 w]. cbn in S. subst w. cbn [try].
      apply K. cbn in K1, K2. apply (kin_trans _ ctx); [now apply kin_sym|]. apply (kin_trans _ ctx'); auto.
    + destruct (set_foreground ctx _ _) as [c0 w] eqn:E. destruct w as [u|e]; cbn [try] in H; [|discriminate H]. destruct (IH _ _ _ _ _ H) as [-> K]. split; [reflexivity|].
      intros ctx' p' HK. pose proof (kin_fg ctx ctx' c (VColorForeground c) HK) as (S & K1 & K2). rewrite E in *. destruct (set_foreground ctx' _ _) as [c1 w]. cbn in S. subst w. cbn [try].
      apply K. cbn in K1, K2. apply (kin_trans _ ctx); [now apply kin_sym|]. apply (kin_trans _ ctx'); auto.
Qed.

(** Values that end no text rectangle. *)
Definition inside (v : Value) : Prop := match v with VNewPage | VTextRectangle _ => False | _ => True end.

Lemma graphics_inside a : Forall inside a -> forall v b ctx p q, ~ inside v -> rg (a ++ v :: b) ctx p = Val (Ok q) ->
  exists ctx', kin ctx ctx' /\ forall z, rg (a ++ z) ctx p = rg z ctx' q.
Proof.
  induction 1 as [|v a HV HA IH]; intros w b ctx p q NW H.
  - exists ctx. split; [apply kin_refl|]. destruct w; try (exfalso; apply NW; exact I); cbn in H; injection H as <-; reflexivity.
  - destruct v; try contradiction HV; cbn [app okv map bare render_graphics_loop try] in H; try discriminate H;
      try (destruct (IH _ _ _ _ _ NW H) as (ctx' & K & E); exists ctx'; split; [exact K|]; exact E).
    + destruct (set_background ctx c (VColorBackground c)) as [c0 w0] eqn:E. destruct w0 as [u|e]; cbn [try] in H; [|discriminate H].
      destruct (IH _ _ _ _ _ NW H) as (ctx' & K & E'). exists ctx'. pose proof (kin_bg ctx ctx c (VColorBackground c) (kin_refl _)) as (_ & K1 & _). rewrite E in K1.
      split; [eapply kin_trans; [exact K1|exact K]|]. intros z. cbn [app okv map bare render_graphics_loop try]. rewrite E. cbn [try]. apply E'.
    + destruct (set_foreground ctx c (VColorForeground c)) as [c0 w0] eqn:E. destruct w0 as [u|e]; cbn [try] in H; [|discriminate H].
      destruct (IH _ _ _ _ _ NW H) as (ctx' & K & E'). exists ctx'. pose proof (kin_fg ctx ctx c (VColorForeground c) (kin_refl _)) as (_ & K1 & _). rewrite E in K1.
      split; [eapply kin_trans; [exact K1|exact K]|]. intros z. cbn [app okv map bare render_graphics_loop try]. rewrite E. cbn [try]. apply E'.
    + destruct (set_foreground ctx (Some c) _) as [c0 w0] eqn:E. destruct w0 as [u|e]; cbn [try] in H; [|discriminate H].
      apply try_ok in H as (p1 & H1 & H). destruct (IH _ _ _ _ _ NW H) as (ctx' & K & E'). exists ctx'. split; [exact K|].
      intros z. cbn [app okv map bare render_graphics_loop try]. rewrite E. cbn [try]. rewrite H1. cbn [try]. apply E'.
    + destruct p0 as [[[x y] gid]|]; (destruct (get_graphic d n _) as [g|er] eqn:Hg; [|discriminate H]); apply try_ok in H as (p1 & H1 & H);
        (destruct (IH _ _ _ _ _ NW H) as (ctx' & K & E'); exists ctx'; split; [exact K|];
         intros z; cbn [app okv map bare render_graphics_loop try]; rewrite Hg; cbn [try]; rewrite H1; cbn [try]; apply E').
Qed.

(** ** Texts *)

Definition base (rs : RenderState) : RenderState := set_span (set_line (set_rect rs (mkRect 0 0 0 0)) 0) 0.

Lemma base_rect rs rs' q : base rs = base rs' -> set_span (set_line (set_rect rs q) 0) 0 = set_span (set_line (set_rect rs' q) 0) 0.
Proof. destruct rs, rs'. unfold base, set_span, set_line, set_rect. cbn. intros [=]. subst. reflexivity. Qed.

Lemma base_sets rs rs' : base rs = base rs' -> rs_ctx rs = rs_ctx rs' /\ rs_jp rs = rs_jp rs'
  /\ (forall c, base (set_ctx rs c) = base (set_ctx rs' c)) /\ (forall n i, base (set_font rs n i) = base (set_font rs' n i))
  /\ (forall j, base (set_span (set_jl rs j) 0) = base (set_span (set_jl rs' j) 0))
  /\ (forall j, base (set_span (set_line (set_jp rs j) 0) 0) = base (set_span (set_line (set_jp rs' j) 0) 0))
  /\ (forall c, base (set_char_spacing rs c) = base (set_char_spacing rs' c)).
Proof.
  intros H. assert (E : exists q l n, rs' = set_span (set_line (set_rect rs q) l) n).
  { exists (rs_rect rs'), (rs_line rs'), (rs_span rs'). destruct rs, rs'. cbv in H. injection H as. subst. reflexivity. }
  destruct E as (q & l & n & ->). destruct rs. repeat (split; [reflexivity|]). reflexivity.
Qed.

Lemma texts_hollow po s : Forall hollow s -> forall r b rs rs' sp sp' lb lb' e, base rs = base rs' ->
  rtr po (s ++ VTextRectangle r :: b) rs sp lb = Val e -> a_res e = Ok tt ->
  a_spans e = sp /\ rtr po (s ++ VTextRectangle r :: b) rs' sp' lb' = Val (mkA (a_rs e) (a_state e) (a_rest e) sp' (Ok tt)).
Proof.
  induction 1 as [|v s HV HS IH]; intros r b rs rs' sp sp' lb lb' e EB H HR.
  - cbn [app okv map a_rtr bind] in *. destruct (update_text_rectangle _ _ _ _) as [[q|]| |]; cbn [bind] in *; try discriminate H.
    + injection H as <-. cbn. split; [reflexivity|]. now rewrite (base_rect _ _ q EB).
    + injection H as <-. discriminate HR.
  - destruct (base_sets _ _ EB) as (EC & EJ & B1 & B2 & B3 & B4 & B5).
    destruct v; try contradiction HV; cbn [app okv map a_rtr bind] in *; cbv zeta in *; try (apply (IH _ _ _ _ _ _ _ _ _ EB H HR)).
    + rewrite <- EC. destruct (set_foreground _ _ _) as [c0 [u|er]]; [|injection H as <-; discriminate HR]. apply (IH _ _ _ _ _ _ _ _ _ (B1 _) H HR).
    + apply (IH _ _ _ _ _ _ _ _ _ (B2 _ _) H HR).
    + destruct j as [[]|]; try (injection H as <-; discriminate HR); apply (IH _ _ _ _ _ _ _ _ _ (B3 _) H HR).
    + rewrite <- EJ. destruct j as [[]|]; try (injection H as <-; discriminate HR); destruct (negb _); first [apply (IH _ _ _ _ _ _ _ _ _ (B4 _) H HR) | apply (IH _ _ _ _ _ _ _ _ _ EB H HR)].
    + destruct (_ && _); [injection H as <-; discriminate HR|]. apply (IH _ _ _ _ _ _ _ _ _ (B5 _) H HR).
    + apply (IH _ _ _ _ _ _ _ _ _ (B5 _) H HR).
Qed.

Lemma texts_inside po a : Forall inside a -> forall v b rs sp lb e, ~ inside v ->
  rtr po (a ++ v :: b) rs sp lb = Val e -> a_res e = Ok tt ->
  exists rs1 lb1, base (a_rs e) = base rs1 /\ kin (rs_ctx rs) (rs_ctx rs1) /\ rs_off_time rs = rs_off_time rs1 /\ a_rest e = okv b
    /\ a_state e = match v with VNewPage => new_page po | _ => PsOn false end
    /\ forall z, rtr po (a ++ z) rs sp lb = rtr po z rs1 (a_spans e) lb1.
Proof.
  induction 1 as [|v a HV HA IH]; intros w b rs sp lb e NW H HR.
  - destruct w; try (exfalso; apply NW; exact I); cbn [app okv map a_rtr bind] in *; cbv zeta in *.
    + injection H as <-. exists rs, lb. splits; auto using kin_refl.
    + destruct (update_text_rectangle _ _ _ _) as [[q|]| |]; cbn [bind] in *; try discriminate H; injection H as <-; [|discriminate HR].
      exists rs, lb. splits; auto using kin_refl.
  - assert (GO : forall rs2 sp2 lb2, kin (rs_ctx rs) (rs_ctx rs2) -> rs_off_time rs = rs_off_time rs2 -> rtr po (a ++ w :: b) rs2 sp2 lb2 = Val e ->
       (forall z, rtr po (v :: a ++ z) rs sp lb = rtr po (a ++ z) rs2 sp2 lb2) ->
       exists rs1 lb1, base (a_rs e) = base rs1 /\ kin (rs_ctx rs) (rs_ctx rs1) /\ rs_off_time rs = rs_off_time rs1 /\ a_rest e = okv b
         /\ a_state e = match w with VNewPage => new_page po | _ => PsOn false end
         /\ forall z, rtr po (v :: a ++ z) rs sp lb = rtr po z rs1 (a_spans e) lb1).
    { intros rs2 sp2 lb2 K O E Z. destruct (IH _ _ _ _ _ _ NW E HR) as (rs1 & lb1 & A & B & C & D & F & G). exists rs1, lb1.
      splits; auto; [eapply kin_trans; eauto|congruence|]. intros z. now rewrite Z, G. }
    destruct v; try contradiction HV; cbn [app]; cbn [app okv map a_rtr bind] in H; cbv zeta in H; fold (okv (a ++ w :: b)) in H;
      try (eapply GO; [| |exact H|reflexivity]; [apply kin_refl|reflexivity]).
    + pose proof (kin_fg (rs_ctx rs) (rs_ctx rs) c (VColorForeground c) (kin_refl _)) as (_ & K1 & _).
      destruct (set_foreground (rs_ctx rs) c _) as [c0 [u|er]] eqn:E; [|injection H as <-; discriminate HR].
      eapply GO; [| |exact H|]; [exact K1|reflexivity|]. intros z. cbn [okv map a_rtr bind]. rewrite E. reflexivity.
    + destruct (is_charb c) eqn:E; [|injection H as <-; discriminate HR]. apply bind_val in H as (n & Hn & H).
      eapply GO; [| |exact H|]; [apply kin_refl|reflexivity|]. intros z. cbn [okv map a_rtr bind]. rewrite E. cbv zeta. rewrite Hn. reflexivity.
    + destruct j as [[]|]; try (injection H as <-; discriminate HR); (eapply GO; [| |exact H|]; [apply kin_refl|reflexivity|reflexivity]).
    + destruct j as [[]|]; try (injection H as <-; discriminate HR);
        match type of H with (if ?c then _ else _) = _ => destruct c eqn:E end;
        (eapply GO; [| |exact H|]; [apply kin_refl|reflexivity|]; intros z; cbn [okv map a_rtr bind]; cbv zeta; rewrite E; reflexivity).
    + match type of H with (if ?c then _ else _) = _ => destruct c eqn:E end; [injection H as <-; discriminate HR|]. apply bind_val in H as (n & Hn & H).
      eapply GO; [| |exact H|]; [apply kin_refl|reflexivity|]. intros z. cbn [okv map a_rtr bind]. cbv zeta. rewrite E, Hn. reflexivity.
    + match type of H with (if ?c then _ else _) = _ => destruct c eqn:E end; [injection H as <-; discriminate HR|].
      eapply GO; [| |exact H|]; [apply kin_refl|reflexivity|]. intros z. cbn [okv map a_rtr bind]. rewrite E. reflexivity.
    + apply bind_val in H as (n & Hn & H). eapply GO; [| |exact H|]; [apply kin_refl|reflexivity|]. intros z. cbn [okv map a_rtr bind]. cbv zeta. rewrite Hn. reflexivity.
Qed.

(** ** Pages *)

Lemma loop_more f : forall f' n n' p a p1 a1, (f <= f')%nat -> n' <= n ->
  a_page_loop md d f n p a = Val (p1, Ok a1) -> a_page_loop md d f' n' p a = Val (p1, Ok a1).
Proof.
  induction f as [|f IH]; intros f' n n' p a p1 a1 HF HN H; [discriminate H|]. destruct f' as [|f']; [lia|]. cbn [a_page_loop] in *.
  destruct (ap_state p) as [[|]|?|]; auto. apply bind_val in H as (g & HG & H). rewrite HG. cbn [bind]. destruct g as [a2|e]; [|discriminate H].
  apply bind_val in H as ([p2 x] & HT & H). rewrite HT. cbn [bind]. destruct x as [a3|e]; [|discriminate H]. cbv zeta in *.
  destruct (Z.ltb_spec MAX_TEXT_RECTANGLES (n + 1)); [discriminate H|]. destruct (Z.ltb_spec MAX_TEXT_RECTANGLES (n' + 1)); [lia|].
  apply (IH f' (n + 1) (n' + 1) p2 a3); auto; lia.
Qed.

Section Drop.
Variables (r r' : Rectangle) (s b : list Value).
Hypothesis HS : Forall hollow s.
Definition full (a : list Value) : list Value := a ++ VTextRectangle r :: s ++ VTextRectangle r' :: b.
Definition less (a : list Value) : list Value := a ++ s ++ VTextRectangle r' :: b.

Definition Lean (p q : AP) : Prop :=
  p = q \/ ap_rs p = ap_rs q /\ ap_state p = ap_state q /\ exists a, ap_rest p = okv (full a) /\ ap_rest q = okv (less a).

Lemma inside_split a : Forall inside a \/ exists a0 v a1, a = a0 ++ v :: a1 /\ Forall inside a0 /\ ~ inside v.
Proof.
  induction a as [|v a [IH|(a0 & w & a1 & -> & H & N)]]; [left; constructor| |].
  - destruct v; try (left; constructor; [exact I|exact IH]); right; exists []; do 2 eexists; (split; [reflexivity|]); split; [constructor|intros []|constructor|intros []].
  - destruct v; try (right; match goal with |- exists _ _ _, ?v :: _ = _ /\ _ => exists (v :: a0) end; exists w, a1; split; [reflexivity|]; split; [constructor; [exact I|exact H]|exact N]);
      right; exists []; do 2 eexists; (split; [reflexivity|]); split; [constructor|intros []|constructor|intros []].
Qed.

Lemma loop_lean fuel n p q a p1 a1 : Lean p q -> a_page_loop md d fuel n p a = Val (p1, Ok a1) ->
  exists q1, a_page_loop md d fuel n q a = Val (q1, Ok a1) /\ Lean p1 q1.
Proof.
  revert n p q a. induction fuel as [|f IH]; intros n p q a HL H; [discriminate H|].
  destruct HL as [<-|(ER & ES & u & E1 & E2)]; [exists p1; split; [exact H|now left]|].
  destruct p as [rs st xs], q as [rs' st' ys]. cbn [ap_rs ap_state ap_rest] in *. subst rs' st' xs ys.
  cbn [a_page_loop ap_state ap_rs ap_rest] in *.
  destruct st as [[|]|?|]; try (injection H as <- <-; eexists; split; [reflexivity|]; right; cbn; splits; auto; exists u; auto; fail).
  apply bind_val in H as (g & HG & H). destruct g as [a2|e]; [|discriminate H].
  apply bind_val in H as ([p2 x] & HT & H). destruct x as [a3|e]; [|discriminate H]. cbv zeta in *.
  unfold a_text_rect in HT. cbn [ap_rs ap_rest] in HT. cbv zeta in HT. set (po := 0 <? rs_off_time rs) in *.
  apply bind_val in HT as (e & He & HT). destruct (a_res e) as [[]|er] eqn:EE; [|discriminate HT].
  apply bind_val in HT as (y & Hy & HT). assert (EP : p2 = mkAP (a_rs e) (a_state e) (a_rest e) /\ y = Ok a3) by (split; congruence). destruct EP as [-> ->]. clear HT.
  destruct (MAX_TEXT_RECTANGLES <? n + 1) eqn:EN; [discriminate H|].
  destruct (inside_split u) as [HI|(u0 & v & u1 & -> & HI & NV)].
  - unfold full in HG, He. assert (NT : ~ inside (VTextRectangle r)) by (intros []).
    destruct (graphics_inside u HI _ _ _ _ _ NT HG) as (ctx' & KC & ZG).
    destruct (texts_inside po u HI _ _ _ _ _ _ NT He EE) as (rs1 & lb1 & EB & KR & EO & Erest & Estate & ZT).
    rewrite Erest, Estate in H. destruct f as [|f]; [discriminate H|]. cbn [a_page_loop ap_state ap_rs ap_rest] in H.
    apply bind_val in H as (g & HG2 & H). destruct g as [a4|e2]; [|discriminate H].
    destruct (graphics_hollow s HS _ _ _ _ _ HG2) as [-> ZG2].
    apply bind_val in H as ([p3 x] & HT & H). destruct x as [a5|e2]; [|discriminate H]. cbv zeta in *.
    destruct (base_sets _ _ EB) as (EC & _).
    assert (EPO : (0 <? rs_off_time (a_rs e)) = po).
    { unfold po. rewrite EO. f_equal. clear - EB. destruct (a_rs e), rs1. cbv in EB. injection EB as. subst. reflexivity. }
    unfold a_text_rect in HT. cbn [ap_rs ap_rest] in HT. cbv zeta in HT. rewrite EPO in HT.
    apply bind_val in HT as (e3 & He3 & HT). destruct (a_res e3) as [[]|er] eqn:EE3; [|discriminate HT].
    apply bind_val in HT as (y & Hy3 & HT). assert (EP : p3 = mkAP (a_rs e3) (a_state e3) (a_rest e3) /\ y = Ok a5) by (split; congruence). destruct EP as [-> ->]. clear HT.
    destruct (texts_hollow po s HS _ _ _ rs1 [] (a_spans e) true lb1 e3 EB He3 EE3) as [ESp Z3].
    rewrite ESp in Hy3. assert (E5 : a5 = a3) by (cbn in Hy3; congruence). subst a5.
    destruct (MAX_TEXT_RECTANGLES <? n + 1 + 1) eqn:EN2; [discriminate H|].
    unfold less. rewrite ZG, (ZG2 ctx' a2) by (rewrite EC; eapply kin_trans; [apply kin_sym; exact KR|exact KC]).
    cbn [bind]. unfold a_text_rect. cbn [ap_rs ap_rest]. cbv zeta. fold po. rewrite ZT, Z3. cbn [bind a_res a_spans a_rs a_state a_rest]. rewrite Hy. cbn [bind].
    exists p1. split; [|now left]. apply (loop_more f (S f) (n + 1 + 1) (n + 1)); [lia|lia|exact H].
  - assert (EF : full (u0 ++ v :: u1) = u0 ++ v :: full u1) by (unfold full; now rewrite <- app_assoc).
    assert (EL : less (u0 ++ v :: u1) = u0 ++ v :: less u1) by (unfold less; now rewrite <- app_assoc).
    rewrite EF in HG, He. rewrite EL.
    destruct (graphics_inside u0 HI _ _ _ _ _ NV HG) as (ctx' & KC & ZG).
    destruct (texts_inside po u0 HI _ _ _ _ _ _ NV He EE) as (rs1 & lb1 & EB & KR & EO & Erest & Estate & ZT).
    rewrite ZG. replace (rg (v :: less u1) ctx' a2) with (Val (@Ok (Raster rgb) SyntaxError a2)) by (destruct v; try (exfalso; apply NV; exact I); reflexivity).
    cbn [bind]. unfold a_text_rect. cbn [ap_rs ap_rest]. cbv zeta. fold po. rewrite ZT. rewrite ZT in He.
    assert (HE' : rtr po (v :: less u1) rs1 (a_spans e) lb1 = Val (mkA (a_rs e) (a_state e) (okv (less u1)) (a_spans e) (Ok tt))).
    { clear - He EE NV. destruct v; try (exfalso; apply NV; exact I); cbn [okv map a_rtr bind] in *; [destruct e as [e1 e2 e3 e4 e5]; cbn [a_rs a_state a_rest a_spans a_res] in *; injection He as; subst; reflexivity|].
      destruct (update_text_rectangle _ _ _ _) as [[q0|]| |]; cbn [bind] in *; try discriminate He; destruct e as [e1 e2 e3 e4 e5]; cbn [a_rs a_state a_rest a_spans a_res] in *; injection He as; subst; try discriminate EE; reflexivity. }
    rewrite HE'. cbn [bind a_res a_spans a_rs a_state a_rest]. rewrite Hy. cbn [bind].
    apply (IH (n + 1) (mkAP (a_rs e) (a_state e) (a_rest e)) (mkAP (a_rs e) (a_state e) (okv (less u1))) a3); [|exact H].
    right. cbn. splits; auto. exists u1. auto.
Qed.

Lemma check_lean a : check_unsupported d (bare (okv (full a))) = Val (Ok tt) -> check_unsupported d (bare (okv (less a))) = Val (Ok tt).
Proof.
  induction a as [|v a IH].
  - unfold full, less. cbn [app okv map bare check_unsupported try value_tag]. destruct (negb _); [discriminate|]. auto.
  - unfold full, less in *. cbn [app okv map bare check_unsupported try]. destruct (value_tag v); auto. destruct (negb _); auto. destruct (_ =? _); auto.
Qed.

Lemma update_lean a : forall rs, update_page_loop (rs_new d) (bare (okv (full a))) rs = update_page_loop (rs_new d) (bare (okv (less a))) rs.
Proof.
  induction a as [|v a IH]; intros rs; [reflexivity|]. unfold full, less in *. cbn [app okv map bare update_page_loop bind]. 
  destruct v; try (exact (IH _)); try reflexivity; destruct (set_background _ _ _) as [c0 [w|er]]; try reflexivity; exact (IH _).
Qed.

Lemma on_page_lean p q p1 P : Lean p q -> a_on_page md d p = Val (p1, Ok P) -> exists q1, a_on_page md d q = Val (q1, Ok P) /\ Lean p1 q1.
Proof.
  intros [<-|(ER & ES & u & E1 & E2)] H; [exists p1; split; [exact H|now left]|].
  unfold a_on_page in *. cbv zeta in *. rewrite E1 in H. rewrite E2, <- ER.
  apply bind_val in H as (k & HK & H). destruct k as [[]|er]; [|discriminate H]. rewrite (check_lean _ HK). cbn [bind].
  apply bind_val in H as ([rs w] & HUp & H). unfold update_page_state in *. cbv zeta in *. rewrite <- update_lean, HUp. cbn [bind].
  destruct w as [[]|er]; [|discriminate H]. apply bind_val in H as ([p2 x] & HL & H). destruct x as [a|er]; [|discriminate H].
  assert (A : Lean (mkAP rs (PsOn false) (okv (full u))) (mkAP rs (PsOn false) (okv (less u)))) by (right; cbn; splits; auto; exists u; auto).
  destruct (loop_lean 52 0 _ _ _ _ _ A HL) as (q1 & HL' & HQ). rewrite HL'. cbn [bind].
  assert (EP : p2 = p1 /\ P = mkPage a (rs_on_time (ap_rs p2))) by (split; congruence). destruct EP as [-> ->].
  exists q1. split; [|exact HQ]. destruct HQ as [<-|(<- & _)]; reflexivity.
Qed.

Lemma take_lean n : forall p q ps, Lean p q -> a_take md d n p = Val (map Ok ps) -> a_take md d n q = Val (map Ok ps).
Proof.
  induction n as [|n IH]; intros p q ps HL H; cbn [a_take] in *; [exact H|].
  apply bind_val in H as ([o p1] & HN & H). destruct o as [x|].
  - apply bind_val in H as (l & Hl & E). destruct ps as [|P ps]; [discriminate E|].
    assert (EX : x = Ok P /\ l = map Ok ps) by (split; cbn in E; congruence). destruct EX as [-> ->]. clear E.
    assert (HQ : exists q1, a_next md d q = Val (Some (Ok P), q1) /\ Lean p1 q1).
    { unfold a_next in *. assert (ES : ap_state p = ap_state q) by (destruct HL as [<-|(_ & E & _)]; auto). rewrite <- ES. destruct (ap_state p) as [x|x|] eqn:Est.
      - apply bind_val in HN as ([p2 y] & HP & E). cbn [fst snd] in E. assert (EY : y = Ok P /\ p2 = p1) by (split; congruence). destruct EY as [-> ->].
        destruct (on_page_lean p q p1 P HL HP) as (q1 & HQ & HL1). rewrite HQ. exists q1. split; [reflexivity|exact HL1].
      - assert (EX : Ok (mkPage (build_raster (ap_rs p)) (rs_off_time (ap_rs p))) = @Ok Page SyntaxError P /\ p1 = mkAP (ap_rs p) (next_state (PsOff x)) (ap_rest p)) by (split; congruence).
        destruct EX as [E1 ->]. destruct HL as [<-|(ER & _ & u & F1 & F2)].
        + rewrite E1. eexists. split; [reflexivity|now left].
        + rewrite <- ER, E1. eexists. split; [reflexivity|]. right. cbn. splits; auto. exists u. auto.
      - discriminate HN. }
    destruct HQ as (q1 & HQ & HL1). rewrite HQ. cbn [bind]. rewrite (IH _ _ _ HL1 Hl). reflexivity.
  - destruct ps; [|discriminate H]. unfold a_next in *. assert (ES : ap_state p = ap_state q) by (destruct HL as [<-|(_ & E & _)]; auto). rewrite <- ES.
    destruct (ap_state p); [apply bind_val in HN as (? & ? & E); discriminate E|discriminate HN|]. reflexivity.
Qed.

End Drop.
End Sign.

Lemma hollow_take md d vs ws : LessHollow vs ws -> forall n ps, a_take md d n (a_start d (okv vs)) = Val (map Ok ps) -> a_take md d n (a_start d (okv ws)) = Val (map Ok ps).
Proof.
  induction 1 as [vs|a r s r' b ws HS HL IH]; intros n ps H; [exact H|]. apply IH.
  eapply (take_lean md d r r' s b HS); [|exact H]. right. unfold a_start. cbn. splits; auto. exists a. auto.
Qed.

Lemma less_hollow md d ms ms' vs ws n ps : Meaning ms (map Ok vs) -> Meaning ms' (map Ok ws) -> LessHollow vs ws ->
  pages_take md d n (pages_new d ms) = Val (map Ok ps) -> pages_take md d n (pages_new d ms') = Val (map Ok ps).
Proof.
  intros HM HM' HL H. destruct (Tokens_exists ms) as (ts & HT). destruct (Tokens_exists ms') as (ts' & HT').
  rewrite !(take_start md d _ ms _ (Reads_new _ _ HT)) in *. rewrite !(take_start md d _ ms' _ (Reads_new _ _ HT')) in *.
  rewrite (meaning_okv ms vs ts HT HM) in *. rewrite (meaning_okv ms' ws ts' HT' HM') in *. eapply hollow_take; eauto.
Qed.
