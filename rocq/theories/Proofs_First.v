(** Proofs for C55: a message that fails has one error. *)

From Coq Require Import ZifyBool ZifyNat String.
From Verif Require Import Base Str Multi Color Raster Font Graphic Config Sign Render
  Spec_Multi Spec_Color Spec_Font Spec_Graphic Spec_Sign Spec_Render Spec_Layout Spec_Draw Spec_Page Spec_Safe Spec_Fail
  Proofs_Str Proofs_Norm Proofs_Font Proofs_Table Proofs_Sign Proofs_Render Proofs_Pages Proofs_Horiz Proofs_Vert Proofs_Place Proofs_Draw Proofs_Page Proofs_Safe Proofs_Text Proofs_Fail
  Proofs_Modes Proofs_Verdict.
Open Scope list_scope.
Ltac Zify.zify_post_hook ::= Z.div_mod_to_equations.

(** ** The first of a list *)

Lemma cut_cases {A} : forall (a a' : list A) x x' b b', a ++ x :: b = a' ++ x' :: b' ->
  (a = a' /\ x = x' /\ b = b') \/ (exists m, a' = a ++ x :: m) \/ exists m, a = a' ++ x' :: m.
Proof.
  induction a as [|y a IH]; intros [|y' a'] x x' b b' E; cbn [app] in E; injection E as <- E.
  - subst. auto.
  - right. left. exists a'. reflexivity.
  - right. right. exists a. reflexivity.
  - apply IH in E as [(-> & -> & ->)|[(m & ->)|(m & ->)]]; auto; right; [left|right]; exists m; reflexivity.
Qed.

Lemma First_fun {A} (F : list A -> A -> Fault -> Prop) : (forall a x f f', F a x f -> F a x f' -> f = f') ->
  forall l f f', First F l f -> First F l f' -> f = f'.
Proof.
  intros HF l f f' H H'. destruct H as [a x b f N H]. remember (a ++ x :: b) as l eqn:E.
  destruct H' as [a' x' b' f' N' H']. apply cut_cases in E as [(-> & -> & ->)|[(m & ->)|(m & ->)]].
  - eauto.
  - exfalso. exact (N a' x' m f' eq_refl H').
  - exfalso. exact (N' a x m f eq_refl H).
Qed.

(** ** Text *)

Lemma FontFault_fun d s e e' : FontFault d s e -> FontFault d s e' -> e = e'.
Proof.
  intros H H'. destruct H as [N|f k F V N], H' as [N'|f' k' F' V' N']; auto; exfalso.
  - apply FirstFont_lookup in F'. apply font_lookup_none in N. congruence.
  - apply FirstFont_lookup in F. apply font_lookup_none in N'. congruence.
Qed.

Lemma FirstMissing_fun f : forall t cs cs' ch ch', FirstMissing f t cs ch -> FirstMissing f t cs' ch' -> ch = ch'.
Proof.
  intros t cs cs' ch ch' (a & b & -> & S & N) (a' & b' & E & S' & N').
  apply cut_cases in E as [(_ & -> & _)|[(m & ->)|(m & ->)]]; auto; exfalso.
  - eapply (spells_missing f (a ++ ch :: m)); [exact S'|]. exists a, m. eauto.
  - eapply (spells_missing f (a' ++ ch' :: m)); [exact S|]. exists a', m. eauto.
Qed.

Lemma SpanFault_fun d s e e' : SpanFault d s e -> SpanFault d s e' -> e = e'.
Proof.
  intros H H'. destruct H as [e F|f FO L|f t cs ch FO L ST M], H' as [e' F'|f' FO' L'|f' t' cs' ch' FO' L' ST' M'];
    auto; try (exfalso; eapply font_sound; eauto; fail); try (pose proof (FontOf_fun _ _ _ _ FO FO') as ->; contradiction).
  - eapply FontFault_fun; eauto.
  - pose proof (FontOf_fun _ _ _ _ FO FO') as ->. apply ShowsText_str in ST, ST'. subst t t'.
    do 2 f_equal. eapply FirstMissing_fun; eauto.
Qed.

Lemma RunFault_fun d n l t f f' : RunFault d n l t f -> RunFault d n l t f' -> f = f'.
Proof.
  assert (X : forall b a f, Sides (d_fonts d) n (l ++ [t]) b a -> SpanFault d t f -> f = Overflow None).
  { intros b a f0 S F. apply Sides_iff in S as [_ C]. apply Chain_last in C as (w & W).
    assert (N : forall e, f0 <> Reported e) by (intros e ->; exact (width_font d t w e W F)).
    destruct F as [f0 F|g FO L|g u cs ch FO L ST M]; auto; exfalso; [destruct F|]; eapply N; reflexivity. }
  intros H H'. destruct H as [G|f NG F|b a S O], H' as [G'|f' NG' F'|b' a' S' O']; auto; try contradiction.
  - eapply SpanFault_fun; eauto.
  - eauto.
  - symmetry. eauto.
Qed.

Lemma run_set_no d all s w run f : RunSet d all s w -> Picked (SameRun s) all run ->
  First (RunFault d (s_number s)) run f -> False.
Proof. intros (_ & run' & P & N & _) P' F. pose proof (Picked_fun _ _ _ _ P P') as ->. exact (First_not _ _ _ F N). Qed.

Lemma block_set_no d all s h block f : BlockSet d all s h -> Picked (SameBlock s) all block ->
  First (fun _ => FontFault d) block f -> False.
Proof. intros (_ & block' & ls & P & N & _) P' F. pose proof (Picked_fun _ _ _ _ P P') as ->. exact (First_not _ _ _ F N). Qed.

Lemma run_set_side d all s w : RunSet d all s w -> s_jl s = JlOther \/ s_jl s = JlFull -> False.
Proof. intros (J & _) H. destruct J as [J|[J|J]], H as [H|H]; rewrite J in H; discriminate H. Qed.

Lemma SpanFails_fun d all s f f' : SpanFails d all s f -> SpanFails d all s f' -> f = f'.
Proof.
  intros H H'.
  destruct H as [J|run f J PK F|w R W|w R W J|w block f R W J PK F|w h R W B T|w h x y g cs R W B T X Y L HS IN
    |w h x y g cs px py R W B T X Y L HS IN N|w h x y g cs px py R W B T X Y Z HS IN L];
  destruct H' as [J'|run' f' J' PK' F'|w' R' W'|w' R' W' J'|w' block' f' R' W' J' PK' F'|w' h' R' W' B' T'|w' h' x' y' g' cs' R' W' B' T' X' Y' L' HS' IN'
    |w' h' x' y' g' cs' px' py' R' W' B' T' X' Y' L' HS' IN' N'|w' h' x' y' g' cs' px' py' R' W' B' T' X' Y' Z' HS' IN' L'];
    auto;
    try (exfalso; eapply run_set_side; eauto; fail);
    try (exfalso; eapply run_set_no; eauto; fail);
    try (exfalso; eapply block_set_no; eauto; fail);
    try (pose proof (RunSet_fun _ _ _ _ _ R R') as ->);
    try (pose proof (BlockSet_fun _ _ _ _ _ B B') as ->);
    try lia; auto.
  all: try (exfalso; clear - J J'; destruct J as [E|E], J' as [E'|[E'|E']]; rewrite E in E'; discriminate E').
  all: try (exfalso; clear - J J'; destruct J' as [E|E], J as [E'|[E'|E']]; rewrite E in E'; discriminate E').
  all: try (exfalso; clear - J B'; destruct B' as ([E'|[E'|E']] & _); rewrite J in E'; discriminate E').
  all: try (exfalso; clear - J' B; destruct B as ([E'|[E'|E']] & _); rewrite J' in E'; discriminate E').
  all: try (exfalso; clear - J J'; destruct J as [E'|[E'|E']]; rewrite J' in E'; discriminate E').
  all: try (exfalso; clear - J J'; destruct J' as [E'|[E'|E']]; rewrite J in E'; discriminate E').
  all: try (exfalso; pose proof (at_y_fun _ _ _ _ _ Y Y'); lia).
  all: try (exfalso; pose proof (at_y_fun _ _ _ _ _ Y Y') as <-; pose proof (at_x_fun _ _ _ _ _ X X') as <-;
            destruct (set_with_fun _ _ _ _ _ _ HS HS') as [<- <-]; solve [eauto]).
  - pose proof (Picked_fun _ _ _ _ PK PK') as ->. eapply First_fun; eauto. intros; eapply RunFault_fun; eauto.
  - pose proof (Picked_fun _ _ _ _ PK PK') as ->. refine (First_fun _ _ _ _ _ F F'). intros _ x f1 f1' X X'. exact (FontFault_fun d x f1 f1' X X').
Qed.

Lemma TextFails_fun d spans e e' : TextFails d spans e -> TextFails d spans e' -> e = e'.
Proof.
  intros [O|e1 O F] [O'|e1' O' F']; auto; try contradiction. refine (First_fun _ _ _ _ _ F F'). intros _ x f1 f1' X X'. exact (SpanFails_fun d spans x f1 f1' X X').
Qed.

(** ** Text rectangles *)

Lemma DrawFault_fun d c a p p' v e e' : sized p p' -> DrawFault d c a p v e -> DrawFault d c a p' v e' -> e = e'.
Proof.
  intros HS H H'.
  destruct H as [v B|n pos e H|r clr e H O|r clr NE NU|v NR NC];
    inversion H' as [v' B'|n' pos' e1 K|r' clr' e1 K O'|r' clr' NE' NU'|v' NR' NC']; subst; auto;
    try (inversion B; fail); try (inversion B'; fail); try (exfalso; tauto);
    try (exfalso; now apply (NC r clr)); try (exfalso; now apply (NC' r clr)); try (exfalso; now apply NR); try (exfalso; now apply NR');
    try (exfalso; destruct B; now apply NR'); try (exfalso; destruct B'; now apply NR); try (exfalso; apply NR'; exact I);
    try (exfalso; eapply NC'; reflexivity); try (exfalso; eapply NC; reflexivity).
  - destruct (or_else pos (1, 1, None)) as [[x y] id]. apply (graphic_sized _ _ _ _ _ _ _ p') in H; auto.
    f_equal. exact (GraphicTag_err_fun _ _ _ _ _ _ _ _ _ H K).
  - inversion H; inversion K; auto.
Qed.

Lemma TagFault_fun d c a v f f' : TagFault d c a v f -> TagFault d c a v f' -> f = f'.
Proof.
  intros H H'. destruct H as [v B R|r N|t L|h L NB|n L NB]; inversion H' as [v' B' R'|r' N'|t' L'|h' L' NB'|n' L' NB']; subst; auto;
    try contradiction; try (inversion B; fail); try (inversion B'; fail).
Qed.

Lemma text_sized d c vs p q : TextsShown d c vs p q -> sized p q.
Proof. intros [S1 _ _ _ _ _]. exact S1. Qed.

Lemma RectFails_fun d c vs after p p' e e' : sized p p' ->
  RectFails d c vs after p e -> RectFails d c vs after p' e' -> e = e'.
Proof.
  intros HS H H'.
  assert (DR : forall q q', Accepted d c vs q q' -> forall u, In u vs -> Drawable d u) by (intros q0 q0' (_ & HB & _) u I; now apply HB).
  assert (DX : forall p0 p0' a v b q0 q0' f, sized p0 p0' -> vs = a ++ v :: b -> Graphics d c [] a p0 q0 -> DrawFault d c a q0 v f ->
    Graphics d c [] vs p0' q0' -> (forall u, In u vs -> Drawable d u) -> False).
  { intros p0 p0' a v b q0 q0' f S -> G0 D G0' FF. eapply (draw_excl d c a v b p0 p0'); eauto. apply FF. apply in_elt. }
  pose proof (sized_sym _ _ HS) as HS'.
  destruct H as [a v b q e E G FF D|q e G FF FT|q e G FF FT TF|q q1 G HA FT EN];
    destruct H' as [a' v' b' q' e' E' G' FF' D'|q' e' G' FF' FT'|q' e' G' FF' FT' TF'|q' q1' G' HA' FT' EN']; auto;
    try (exfalso; eapply (DX p p'); eauto; fail); try (exfalso; eapply (DX p' p); eauto; fail);
    try (exfalso; eapply First_not; eauto; fail).
  - subst vs. apply cut_cases in E' as [(-> & -> & ->)|[(m & ->)|(m & ->)]].
    + refine (DrawFault_fun d c a' q q' v' e e' _ D D').
      apply (sized_trans _ p); [apply sized_sym; eapply graphics_sized; eauto|].
      apply (sized_trans _ p'); auto. eapply graphics_sized; eauto.
    + exfalso. eapply (draw_excl d c a v m p p'); eauto. apply FF'. apply in_elt.
    + exfalso. eapply (draw_excl d c a' v' m p' p); eauto. apply FF. apply in_elt.
  - eapply First_fun; eauto. intros; eapply TagFault_fun; eauto.
  - eapply TextFails_fun; eauto.
  - exfalso. destruct HA' as (_ & _ & _ & _ & HT). exact (HT e TF).
  - exfalso. destruct HA as (_ & _ & _ & _ & HT). exact (HT e' TF').
Qed.

(** A text rectangle that is drawn, and after which there is room, does not fail. *)
Lemma rect_excl_accepted d c vs r rest p p' q q' e : sized p p' -> RectFails d c vs (VTextRectangle r :: rest) p e ->
  Graphics d c [] vs p' q -> Accepted d c vs q q' -> GoodTextRect d r -> measurable d r -> (text_rects (pl_upto c) < 50)%nat -> False.
Proof.
  intros HS H G (_ & HB & HTg & _ & HT) GR GE L.
  assert (NT : NoFault (TagFault d c) (vs ++ firstn 1 (VTextRectangle r :: rest))) by (apply accepted_tags; eauto 10).
  destruct H as [a v b q1 e -> G1 FF D|q1 e G1 FF FT|q1 e G1 FF FT TF|q1 q2 G1 HA FT EN].
  - eapply (draw_excl d c a v b p p'); eauto. apply HB. apply in_elt.
  - exact (First_not _ _ _ FT NT).
  - exact (HT e TF).
  - lia.
Qed.

Lemma Fails_fun d : forall c vs p e, Fails d c vs p e -> forall p' e', sized p p' -> Fails d c vs p' e' -> e = e'.
Proof.
  induction 1 as [c vs after p e N A F|c vs r rest p q q' e N G HA HL GR GE HF IH]; intros p' e' HS H.
  - remember (vs ++ after) as l eqn:El. destruct H as [c vs' after' p' e' N' A' F'|c vs' r rest p' q q' e' N' G HA HL GR GE HF].
    + apply first_rect in El as [-> ->]; auto. eapply RectFails_fun; eauto.
    + apply first_rect in El as [-> <-]; eauto. exfalso. eapply (rect_excl_accepted d c vs); eauto.
  - remember (vs ++ VTextRectangle r :: rest) as l eqn:El.
    destruct H as [c vs' after' p' e' N' A' F'|c vs' r' rest' p' q1 q1' e' N' G' HA' HL' GR' GE' HF'].
    + apply first_rect in El as [-> ->]; eauto. exfalso. apply sized_sym in HS.
      eapply (rect_excl_accepted d c vs r rest p' p); eauto.
    + apply first_rect in El as [-> E]; eauto. injection E as -> ->. apply (IH q1'); auto.
      destruct HA as (HA & _), HA' as (HA' & _). apply text_sized in HA, HA'. apply graphics_sized in G, G'.
      apply (sized_trans _ q); [now apply sized_sym|]. apply (sized_trans _ p); [now apply sized_sym|].
      apply (sized_trans _ p'); auto. apply (sized_trans _ q1); auto.
Qed.

(** ** Pages *)

Lemma PageFails_fun d before pg e e' : PageFails d before pg e -> PageFails d before pg e' -> e = e'.
Proof.
  intros [a v b -> N B|e1 N F] H'.
  - remember (a ++ v :: b) as pg eqn:E. destruct H' as [a' v' b' E' N' B'|e1' N' F'].
    + rewrite E in E'. apply cut_cases in E' as [(_ & -> & _)|[(m & ->)|(m & ->)]]; auto; exfalso.
      * apply (N' v); auto. apply in_elt.
      * apply (N v'); auto. apply in_elt.
    + exfalso. apply (N' v); auto. rewrite E. apply in_elt.
  - destruct H' as [a' v' b' -> N' B'|e1' N' F'].
    + exfalso. apply (N v'); auto. apply in_elt.
    + eapply Fails_fun; eauto. apply sized_refl.
Qed.

Lemma Refused_fun d x e e' : Refused d x e -> Refused d x e' -> e = e'.
Proof. intros H H'. inversion H; subst; inversion H'; subst; auto. Qed.

Lemma refused_first d vs x t pg e : no_page_break vs -> Forall (Supports d) pg ->
  FirstPage (map Ok vs ++ x :: t) pg ->
  (forall r, map Ok vs ++ x :: t = map Ok pg ++ Ok VNewPage :: r -> Supports d VNewPage) -> ~ Refused d x e.
Proof.
  intros N S [Np HP] HS R. rewrite Forall_forall in S.
  assert (exists r, map Ok vs ++ x :: t = map Ok pg ++ r /\ (r = [] \/ exists r', r = Ok VNewPage :: r')) as (r & E & Hr).
  { destruct HP as [E|(r & E)]; [exists []; rewrite app_nil_r; auto|]. exists (Ok VNewPage :: r). split; eauto. }
  destruct (in_first vs x t pg r E N Hr) as (v & -> & I). apply (refused_excl d v e); auto.
  destruct I as [I|[-> Hr']]; auto. destruct Hr as [->|(r' & ->)]; [congruence|]. eapply HS; eauto.
Qed.

Lemma refused_cut d vs x t e ws : Forall (Supports d) ws -> Refused d x e -> map Ok vs ++ x :: t <> map Ok ws.
Proof.
  intros S R E. assert (I : In x (map Ok ws)) by (rewrite <- E; apply in_elt).
  apply in_map_iff in I as (v & <- & I). rewrite Forall_forall in S. exact (refused_excl d v _ (S v I) R).
Qed.

Lemma cut_first vs pg : no_page_break vs -> FirstPage (map Ok vs) pg -> map (@Ok Value SyntaxError) vs = map Ok pg.
Proof. intros N F. f_equal. refine (FirstPage_fun _ _ _ _ F). split; auto. Qed.

Lemma RestFails_fun d before rest cut e e' : RestFails d before rest cut e -> RestFails d before rest cut e' -> e = e'.
Proof.
  intros [vs x t e1 -> N S R|vs C -> N S|pg e1 FP FC S HS F] H'.
  - remember (map Ok vs ++ x :: t) as l eqn:E. destruct H' as [vs' x' t' e1' E' N' S' R'|vs' C' E' N' S'|pg' e1' FP' FC' S' HS' F'].
    + rewrite E in E'. apply cut_cases in E' as [(_ & -> & _)|[(m & Em)|(m & Em)]].
      * f_equal. eapply Refused_fun; eauto.
      * exfalso. assert (I : In x (map Ok vs')) by (rewrite Em; apply in_elt).
        apply in_map_iff in I as (v & <- & I). rewrite Forall_forall in S'. exact (refused_excl d v _ (S' v I) R).
      * exfalso. assert (I : In x' (map Ok vs)) by (rewrite Em; apply in_elt).
        apply in_map_iff in I as (v & <- & I). rewrite Forall_forall in S. exact (refused_excl d v _ (S v I) R').
    + exfalso. subst l. exact (refused_cut d vs x t e1 vs' S' R E').
    + exfalso. subst l. exact (refused_first d vs x t pg' e1 N S' FP' HS' R).
  - remember (map Ok vs) as l eqn:E. destruct H' as [vs' x' t' e1' E' N' S' R'|vs' C' E' N' S'|pg' e1' FP' FC' S' HS' F']; auto.
    + exfalso. rewrite E in E'. exact (refused_cut d vs' x' t' e1' vs S R' (eq_sym E')).
    + exfalso. rewrite E in FP'. apply (FC' C). rewrite E. now apply cut_first.
  - destruct H' as [vs' x' t' e1' -> N' S' R'|vs' C' -> N' S'|pg' e1' FP' FC' S' HS' F'].
    + exfalso. exact (refused_first d vs' x' t' pg e1' N' S FP HS R').
    + exfalso. apply (FC C'). now apply cut_first.
    + pose proof (FirstPage_fun _ _ _ FP FP') as ->. eapply PageFails_fun; eauto.
Qed.

(** ** Messages *)

Lemma same_fault d ms ps ps' f f' : MessageStops d ms ps f -> MessageStops d ms ps' f' -> f = f'.
Proof.
  intros (pgs & rest & cut & HM & HN & HS & HE & HF) (pgs' & rest' & cut' & HM' & HN' & HS' & HE' & HF').
  destruct (reading_fun _ _ _ _ _ HM HM') as [E <-].
  destruct (fails_same d cut pgs [] pgs' ps ps' rest rest' f f' E HN HS HE HF HN' HS' HE' HF') as [<- <-].
  exact (RestFails_fun _ _ _ _ _ _ HF HF').
Qed.

Lemma same_error d ms ps ps' e e' : MessageFails d ms ps e -> MessageFails d ms ps' e' -> e = e'.
Proof. intros H H'. pose proof (same_fault _ _ _ _ _ _ H H') as E. now injection E. Qed.

(** Debug builds: what happens is what is described. *)
Lemma exact_debug d ms : Built d ->
  ((exists ps, Yields Debug d ms (map Ok ps)) <-> exists ps, MessageAccepted d ms ps)
  /\ (forall k e, (exists n ps l, List.length ps = k /\ pages_take Debug d n (pages_new d ms) = Val (map Ok ps ++ Err e :: l))
        <-> exists ps, List.length ps = k /\ MessageFails d ms ps e)
  /\ forall k, (exists ps, List.length ps = k /\ pages_take Debug d k (pages_new d ms) = Val (map Ok ps)
                  /\ pages_take Debug d (S k) (pages_new d ms) = Panic)
        <-> exists ps, List.length ps = k /\ MessagePanics d ms ps.
Proof.
  intros HB.
  pose proof (fun ps => accepted_message d ms ps HB) as H1.
  pose proof (fun n ps e l => fail_message d n ms ps e l HB) as H2.
  pose proof (fun ps => panic_message d ms ps HB) as H3.
  assert (T : (exists ps, Yields Debug d ms (map Ok ps) /\ MessageAccepted d ms ps)
    \/ (exists n ps e l, pages_take Debug d n (pages_new d ms) = Val (map Ok ps ++ Err e :: l) /\ MessageFails d ms ps e)
    \/ exists ps, pages_take Debug d (List.length ps) (pages_new d ms) = Val (map Ok ps)
       /\ pages_take Debug d (S (List.length ps)) (pages_new d ms) = Panic /\ MessagePanics d ms ps).
  { destruct (total_debug d ms) as [(ps & H)|[(n & ps & e & l & H)|(ps & H & H')]]; [left|right; left|right; right].
    - eauto.
    - exists n, ps, e, l. eauto.
    - eauto 10. }
  splits.
  - split; [intros (ps & H); eauto|]. intros (ps & HA).
    destruct T as [(qs & H & _)|[(n & qs & e & l & _ & HX)|(qs & _ & _ & g & _ & HX)]]; [eauto|exfalso; exact (excl_message _ _ _ _ _ HA HX)..].
  - intros k e. split; [intros (n & ps & l & L & H); eauto|]. intros (ps & L & HX).
    destruct T as [(qs & _ & HA)|[(n & qs & e' & l & H & HX')|(qs & _ & _ & g & PG & HX')]].
    + exfalso. exact (excl_message _ _ _ _ _ HA HX).
    + pose proof (same_error _ _ _ _ _ _ HX HX') as <-. exists n, qs, l. split; auto. rewrite <- L. exact (same_message _ _ _ _ _ _ HX' HX).
    + exfalso. exact (PG _ (same_fault _ _ _ _ _ _ HX' HX)).
  - intros k. split; [intros (ps & <- & H & H'); eauto|]. intros (ps & L & g & PG & HX).
    destruct T as [(qs & _ & HA)|[(n & qs & e' & l & H & HX')|(qs & H & H' & g' & _ & HX')]].
    + exfalso. exact (excl_message _ _ _ _ _ HA HX).
    + exfalso. exact (PG _ (same_fault _ _ _ _ _ _ HX HX')).
    + pose proof (same_message _ _ _ _ _ _ HX HX') as E. rewrite L in E. subst k. exists qs. rewrite E. auto.
Qed.
