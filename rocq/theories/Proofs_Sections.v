(** The order of the values of a page. *)

From Coq Require Import String Lia.
From Verif Require Import Base Str Multi Color Raster Font Graphic Config Sign Render
  Spec_Multi Spec_Color Spec_Sign Spec_Render Spec_Layout Spec_Page Spec_Sections
  Proofs_Str Proofs_Split Proofs_Norm Proofs_Iter Proofs_Machine Proofs_Reach Proofs_Pages Proofs_Follow.
Open Scope list_scope.

Definition sec (v : Value) : Prop := in_section v = true.

Lemma okv_app a b : okv (a ++ b) = okv a ++ okv b.
Proof. apply map_app. Qed.

(** ** Pictures *)

(** Where a section ends. *)
Inductive ends : list Value -> Prop :=
| En_nil : ends []
| En_page r : ends (VNewPage :: r)
| En_rect x r : ends (VTextRectangle x :: r).

Lemma pictures_end md d r ctx raster : ends r -> render_graphics_loop md d (bare (okv r)) ctx raster = Val (Ok raster).
Proof. intros []; reflexivity. Qed.

Lemma pictures_filter md d a r : Forall sec a -> ends r -> forall ctx raster,
  render_graphics_loop md d (bare (okv (a ++ r))) ctx raster
  = render_graphics_loop md d (bare (okv (filter for_pictures a))) ctx raster.
Proof.
  intros HA HE. induction HA as [|v a Hv _ IH]; intros ctx raster.
  - cbn [app filter]. rewrite pictures_end by auto. reflexivity.
  - cbn [app filter]. destruct v; try discriminate Hv; cbn [for_pictures]; cbn [okv map bare render_graphics_loop try];
      fold (okv (a ++ r)); fold (bare (okv (a ++ r))); try apply IH;
      fold (okv (filter for_pictures a)); fold (bare (okv (filter for_pictures a))).
    + destruct (set_background _ _ _) as [c0 [u|e]]; cbn [try]; [apply IH|reflexivity].
    + destruct (set_foreground _ _ _) as [c0 [u|e]]; cbn [try]; [apply IH|reflexivity].
    + destruct (set_foreground _ _ _) as [c0 [u|e]]; cbn [try]; [|reflexivity].
      destruct (render_rect _ _ _ _ _) as [[q|e]| |]; cbn [try]; auto.
    + destruct p as [[[x y] i]|]; (destruct (get_graphic _ _ _) as [g|e]; cbn [try]; [|reflexivity]);
        (destruct (map_err _ _) as [[q|e]| |]; cbn [try]; auto).
Qed.

Lemma pictures_same md d a b r r' ctx raster : SameSection a b -> ends r -> ends r' ->
  render_graphics_loop md d (bare (okv (a ++ r))) ctx raster = render_graphics_loop md d (bare (okv (b ++ r'))) ctx raster.
Proof. intros (HA & HB & E & _) H H'. rewrite !pictures_filter by auto. now rewrite E. Qed.

(** ** Text *)

Inductive ends2 (R S : list Value -> list Value -> Prop) : list Value -> list Value -> Prop :=
| E2_nil : ends2 R S [] []
| E2_page r s : R r s -> ends2 R S (VNewPage :: r) (VNewPage :: s)
| E2_rect x r s : S r s -> ends2 R S (VTextRectangle x :: r) (VTextRectangle x :: s).

Definition EndRel (R S : list Value -> list Value -> Prop) (e e' : AEnd) : Prop :=
  a_rs e = a_rs e' /\ a_state e = a_state e' /\ a_spans e = a_spans e' /\ a_res e = a_res e'
  /\ (a_res e = Ok tt ->
      (exists po, a_state e = done po)
      \/ (exists po, a_state e = new_page po) /\ (exists r s, a_rest e = okv r /\ a_rest e' = okv s /\ R r s)
      \/ a_state e = PsOn false /\ (exists r s, a_rest e = okv r /\ a_rest e' = okv s /\ S r s)).

Lemma text_skip md d po v r rs spans lb : sec v -> for_text v = false ->
  a_rtr md d (rs_new d) po (okv (v :: r)) rs spans lb = a_rtr md d (rs_new d) po (okv r) rs spans lb.
Proof. intros H H'. destruct v; try discriminate H; try discriminate H'; reflexivity. Qed.

Lemma text_end R S md d po r s : ends2 R S r s -> forall rs spans lb,
  MRel (EndRel R S) (a_rtr md d (rs_new d) po (okv r) rs spans lb) (a_rtr md d (rs_new d) po (okv s) rs spans lb).
Proof.
  intros [|r0 s0 HR|x r0 s0 HS] rs spans lb; cbn [okv map a_rtr bind].
  - unfold EndRel. cbn. splits; auto. intros _. left. eauto.
  - unfold EndRel. cbn. splits; auto. intros _. right; left. split; eauto 6.
  - destruct (update_text_rectangle _ _ _ _) as [[q|]| |]; cbn [bind]; cbn; auto; unfold EndRel; cbn; splits; auto.
    + intros _. right; right. split; eauto 6.
    + discriminate.
Qed.

Lemma text_same R S md d po a : forall b r s rs spans lb, Forall sec a -> Forall sec b -> filter for_text a = filter for_text b -> ends2 R S r s ->
  MRel (EndRel R S) (a_rtr md d (rs_new d) po (okv (a ++ r)) rs spans lb) (a_rtr md d (rs_new d) po (okv (b ++ s)) rs spans lb).
Proof.
  assert (Skip : forall b r, Forall sec b -> exists t, filter for_text b = filter for_text t /\ Forall sec t
      /\ (t = [] \/ exists v u, t = v :: u /\ for_text v = true)
      /\ forall rs spans lb, a_rtr md d (rs_new d) po (okv (b ++ r)) rs spans lb = a_rtr md d (rs_new d) po (okv (t ++ r)) rs spans lb).
  { intros b r HB. induction HB as [|v b Hv HB (t & E & HT & HC & ER)]; [exists []; splits; auto|].
    cbn [filter]. destruct (for_text v) eqn:Ev.
    - exists (v :: b). cbn [filter]. rewrite Ev. splits; auto. right. eauto.
    - exists t. splits; auto. intros. cbn [app]. rewrite text_skip by auto. apply ER. }
  induction a as [|v a IH]; intros b r s rs spans lb HA HB HF HE.
  - destruct (Skip b s HB) as (t & E & HT & HC & ER). rewrite ER. cbn [filter] in HF. rewrite E in HF.
    destruct HC as [->|(v & u & -> & Hv)]; [now apply text_end|]. cbn [filter] in HF. rewrite Hv in HF. discriminate.
  - inversion HA as [|? ? Hv HA']; subst. cbn [app filter] in *. destruct (for_text v) eqn:Ev; [|rewrite text_skip by auto; now apply IH].
    destruct (Skip b s HB) as (t & E & HT & HC & ER). rewrite ER. rewrite E in HF.
    destruct HC as [->|(w & u & -> & Hw)]; [discriminate HF|]. cbn [filter] in HF. rewrite Hw in HF. injection HF as <- HF.
    inversion HT as [|? ? _ HU]; subst. clear HB E ER HA HT. specialize (IH u r s).
    assert (IH' : forall rs spans lb, MRel (EndRel R S) (a_rtr md d (rs_new d) po (okv (a ++ r)) rs spans lb) (a_rtr md d (rs_new d) po (okv (u ++ s)) rs spans lb))
      by (intros; now apply IH). clear IH.
    assert (bad : forall rs1 sp e, MRel (EndRel R S) (Val (mkA rs1 (done po) (okv (a ++ r)) sp (Err e))) (Val (mkA rs1 (done po) (okv (u ++ s)) sp (Err e)))).
    { intros. unfold EndRel. cbn. splits; auto. discriminate. }
    cbn [app okv map a_rtr bind]. fold (okv (a ++ r)). fold (okv (u ++ s)).
    destruct v; try discriminate Ev; cbv zeta; auto.
    + destruct (set_foreground _ _ _) as [c0 [w|e]]; auto.
    + destruct (is_charb c); auto. destruct (chk8 _ _); cbn [bind]; auto; exact I.
    + destruct j as [[]|]; auto.
    + destruct j as [[]|]; auto; destruct (negb _); auto.
    + match goal with |- context [if ?c then Val _ else _] => destruct c end; auto. destruct (chk8 _ _); cbn [bind]; auto; exact I.
    + destruct (_ && _); auto.
    + destruct (chk8 _ _); cbn [bind]; auto; exact I.
Qed.

(** ** Pages *)

(** What is left of a page, and of a message. *)
Inductive Tails : list Value -> list Value -> Prop :=
| T_last a b : SameSections a b -> Tails a b
| T_break a b vs ws : SameSections a b -> SamePages vs ws -> Tails (a ++ VNewPage :: vs) (b ++ VNewPage :: ws).

Section Sign.
Variable d : Dms.

Definition Known (vs ws : list Value) : Prop := Forall (Supports d) vs /\ Forall (Supports d) ws.
Definition SP (vs ws : list Value) : Prop := SamePages vs ws /\ Known vs ws.
Definition TL (vs ws : list Value) : Prop := Tails vs ws /\ Known vs ws.

Lemma known_tail a b x vs ws : Known (a ++ x :: vs) (b ++ x :: ws) -> Known vs ws.
Proof.
  intros [H H']. apply Forall_app in H as [_ H]. apply Forall_app in H' as [_ H']. inversion H; inversion H'; subst. split; auto.
Qed.

Lemma tails_section vs ws : TL vs ws -> exists a b r s, vs = a ++ r /\ ws = b ++ s /\ SameSection a b /\ ends2 SP TL r s.
Proof.
  intros [[a b H|a b xs ys H HP] HK].
  - destruct H as [a b H|a b x us ts H H'].
    + exists a, b, [], []. rewrite !app_nil_r. splits; auto. constructor.
    + exists a, b, (VTextRectangle x :: us), (VTextRectangle x :: ts). splits; auto. constructor.
      split; [now constructor|]. exact (known_tail _ _ _ _ _ HK).
  - destruct H as [a b H|a b x us ts H H'].
    + exists a, b, (VNewPage :: xs), (VNewPage :: ys). splits; auto. constructor. split; [auto|]. exact (known_tail _ _ _ _ _ HK).
    + exists a, b, (VTextRectangle x :: us ++ VNewPage :: xs), (VTextRectangle x :: ts ++ VNewPage :: ys).
      rewrite <- !app_assoc in *. splits; auto. constructor. split; [now constructor|]. exact (known_tail _ _ _ _ _ HK).
Qed.

Lemma ends2_l R S r s : ends2 R S r s -> ends r /\ ends s.
Proof. intros []; split; constructor. Qed.

(** Renderer states before corresponding tails or messages. *)
Definition PageRel (p q : AP) : Prop :=
  ap_rs p = ap_rs q /\ ap_state p = ap_state q
  /\ (ap_state p = PsDone
      \/ ap_state p = PsOff false
      \/ (exists r s, ap_rest p = okv r /\ ap_rest q = okv s /\ SP r s)).

Definition StepRel {A} (R : AP -> AP -> Prop) (x y : AP * result A SyntaxError) : Prop :=
  snd x = snd y /\ (forall a, snd x = Ok a -> R (fst x) (fst y)).

Definition LoopRel (p q : AP) : Prop :=
  ap_rs p = ap_rs q /\ ap_state p = ap_state q
  /\ (ap_state p = PsOn false /\ (exists r s, ap_rest p = okv r /\ ap_rest q = okv s /\ TL r s)
      \/ ap_state p <> PsOn false /\ PageRel p q).

Lemma loop_same md fuel : forall n p q raster, LoopRel p q ->
  MRel (StepRel PageRel) (a_page_loop md d fuel n p raster) (a_page_loop md d fuel n q raster).
Proof.
  induction fuel as [|f IH]; intros n p q raster (ER & ES & H); [exact I|].
  destruct H as [(S1 & r & s & E1 & E2 & HT)|(S1 & HP)].
  - cbn [a_page_loop]. rewrite <- ES, S1, <- ER, E1, E2.
    destruct (tails_section _ _ HT) as (a & b & r' & s' & -> & -> & HS & HE).
    rewrite (pictures_same md d a b r' s' (rs_ctx (ap_rs p)) raster HS) by apply (ends2_l _ _ _ _ HE).
    destruct (render_graphics_loop _ _ _ _ _) as [[q1|e]| |]; cbn [bind]; try exact I.
    2:{ unfold StepRel. cbn. split; auto. discriminate. }
    unfold a_text_rect. rewrite <- ER, E1, E2.
    pose proof (text_same SP TL md d (0 <? rs_off_time (ap_rs p)) a b r' s' (ap_rs p) [] true) as HX.
    destruct HS as (HA & HB & _ & HF). specialize (HX HA HB HF HE).
    destruct (a_rtr _ _ _ _ _ _ _ _) as [e| |], (a_rtr _ _ _ _ _ _ _ _) as [e'| |]; cbn in HX; try contradiction; cbn [bind]; auto.
    destruct HX as (X1 & X2 & X3 & X4 & X5). rewrite <- X4, <- X1, <- X2, <- X3. destruct (a_res e) as [[]|er]; cbn [bind].
    2:{ unfold StepRel. cbn. split; auto. discriminate. }
    destruct (render_text_spans _ _ _ _) as [[q2|er]| |]; cbn [bind]; try exact I.
    2:{ unfold StepRel. cbn. split; auto. discriminate. }
    destruct (MAX_TEXT_RECTANGLES <? n + 1). { unfold StepRel. cbn. split; auto. discriminate. }
    apply IH. unfold LoopRel. cbn [ap_rs ap_state ap_rest]. splits; auto.
    destruct (X5 eq_refl) as [(po & E)|[((po & E) & r & s & F1 & F2 & G)|(E & r & s & F1 & F2 & G)]].
    + right. rewrite E. split; [destruct po; discriminate|]. unfold PageRel. cbn. splits; auto. destruct po; auto.
    + right. rewrite E. split; [destruct po; discriminate|]. unfold PageRel. cbn. splits; auto. right; right. eauto.
    + left. split; eauto.
  - rewrite !a_page_loop_stop by congruence. unfold StepRel. cbn. split; auto.
Qed.

(** The background and times that a page ends up with. *)
Fixpoint bgs (l : list Value) (ctx : ColorCtx) : ColorCtx * result unit SyntaxError :=
  match l with
  | [] => (ctx, Ok tt)
  | v :: l =>
      match v with
      | VColorBackground c | VPageBackground c =>
          match set_background ctx c v with
          | (ctx, Ok _) => bgs l ctx
          | (ctx, Err e) => (ctx, Err e)
          end
      | _ => bgs l ctx
      end
  end.

Fixpoint times (ds : RenderState) (l : list Value) (t : Z * Z) : Z * Z :=
  match l with
  | [] => t
  | VPageTime on off :: l =>
      times ds l (match on with Some n => n | None => rs_on_time ds end, match off with Some n => n | None => rs_off_time ds end)
  | _ :: l => times ds l t
  end.

Definition Updated (ds : RenderState) (b t : list Value) (rs : RenderState) (x : M (RenderState * result unit SyntaxError)) : Prop :=
  match bgs b (rs_ctx rs) with
  | (ctx, Ok _) => x = Val (set_times (set_ctx rs ctx) (fst (times ds t (rs_on_time rs, rs_off_time rs))) (snd (times ds t (rs_on_time rs, rs_off_time rs))), Ok tt)
  | (_, Err e) => exists rs', x = Val (rs', Err e)
  end.

Lemma page_filter ds a r : Forall (fun v => v <> VNewPage) a -> (r = [] \/ exists u, r = VNewPage :: u) -> forall rs,
  Updated ds (filter for_background a) (filter for_times a) rs (update_page_loop ds (bare (okv (a ++ r))) rs).
Proof.
  intros HA HE. induction HA as [|v a Hv _ IH]; intros rs.
  - cbn [app filter]. unfold Updated. cbn [bgs times fst snd].
    replace (set_times _ _ _) with rs by (destruct rs; reflexivity). destruct HE as [->|(u & ->)]; reflexivity.
  - cbn [app filter]. destruct v; try congruence; cbn [for_background for_times]; cbn [okv map bare update_page_loop bind];
      fold (okv (a ++ r)); fold (bare (okv (a ++ r))); try apply IH.
    + unfold Updated. cbn [bgs]. destruct (set_background _ _ _) as [c0 [u|e]]; [|eauto]. apply (IH (set_ctx rs c0)).
    + unfold Updated. cbn [bgs]. destruct (set_background _ _ _) as [c0 [u|e]]; [|eauto]. apply (IH (set_ctx rs c0)).
    + exact (IH (set_times rs (match on with Some n => n | None => rs_on_time ds end) (match off with Some n => n | None => rs_off_time ds end))).
Qed.

Lemma sections_no_break a b : SameSections a b -> Forall (fun v => v <> VNewPage) a /\ Forall (fun v => v <> VNewPage) b.
Proof.
  assert (HS : forall a, Forall (fun v => in_section v = true) a -> Forall (fun v => v <> VNewPage) a).
  { intros l H. eapply Forall_impl; [|exact H]. intros v E ->. discriminate. }
  induction 1 as [a b (HA & HB & _)|a b x us vs (HA & HB & _) _ [I1 I2]]; split; auto;
    (apply Forall_app; split; [auto|constructor; [discriminate|auto]]).
Qed.

Definition SameUpdate (x y : RenderState * result unit SyntaxError) : Prop := snd x = snd y /\ (snd x = Ok tt -> fst x = fst y).

Lemma updated_same ds b t rs x y : Updated ds b t rs x -> Updated ds b t rs y -> MRel SameUpdate x y.
Proof.
  unfold Updated. destruct (bgs _ _) as [c [u|e]].
  - intros -> ->. split; auto.
  - intros (r & ->) (s & ->). split; auto. discriminate.
Qed.

Lemma update_same ds vs ws rs : SamePages vs ws ->
  MRel SameUpdate (update_page_loop ds (bare (okv vs)) rs) (update_page_loop ds (bare (okv ws)) rs).
Proof.
  intros [a b (HS & HF & HG)|a b us xs (HS & HF & HG) _]; destruct (sections_no_break _ _ HS) as [N1 N2].
  - rewrite <- (app_nil_r a), <- (app_nil_r b). apply (updated_same ds (filter for_background a) (filter for_times a) rs); [|rewrite HF, HG]; apply page_filter; auto.
  - apply (updated_same ds (filter for_background a) (filter for_times a) rs); [|rewrite HF, HG]; apply page_filter; eauto.
Qed.

Lemma check_supported vs : Forall (Supports d) vs -> check_unsupported d (bare (okv vs)) = Val (Ok tt).
Proof.
  induction 1 as [|v vs Hv _ IH]; [reflexivity|]. cbn [okv map bare check_unsupported try]. fold (okv vs). fold (bare (okv vs)).
  destruct (value_tag v) as [t|] eqn:E; [|exact IH]. rewrite (proj2 (contains_lists d t)) by (apply Hv; now apply value_tag_iff).
  cbn [negb]. destruct (_ =? _); auto.
Qed.

Lemma pages_tails vs ws : SamePages vs ws -> Tails vs ws.
Proof. intros [a b (HS & _)|a b us xs (HS & _) H]; now constructor. Qed.

Lemma on_page_same md p q : PageRel p q -> (exists b, ap_state p = PsOn b) ->
  MRel (StepRel PageRel) (a_on_page md d p) (a_on_page md d q).
Proof.
  intros (ER & ES & H) (b & Eb). destruct H as [H|[H|(r & s & E1 & E2 & HP & HK)]]; [congruence|congruence|].
  unfold a_on_page. cbv zeta. rewrite E1, E2, !check_supported by apply HK. cbn [bind]. rewrite <- ER.
  unfold update_page_state. cbv zeta. pose proof (update_same (rs_new d) r s (set_span (set_line (set_line_spacing (set_rect (ap_rs p) (rs_rect (rs_new d))) (rs_line_spacing (rs_new d))) 0) 0) HP) as HU.
  destruct (update_page_loop _ (bare (okv r)) _) as [[rs u]| |], (update_page_loop _ (bare (okv s)) _) as [[rs' u']| |]; cbn in HU; try contradiction; cbn [bind]; try exact I.
  destruct HU as [HU HU']. cbn [fst snd] in *. subst u'. destruct u as [[]|e].
  2:{ unfold StepRel. cbn. split; auto. discriminate. }
  rewrite <- (HU' eq_refl). clear HU' rs'.
  assert (HL : LoopRel (mkAP rs (PsOn false) (okv r)) (mkAP rs (PsOn false) (okv s))).
  { unfold LoopRel. cbn. splits; auto. left. split; auto. exists r, s. splits; auto. split; [now apply pages_tails|auto]. }
  pose proof (loop_same md 52 0 _ _ (build_raster rs) HL) as HX.
  destruct (a_page_loop md d 52 0 (mkAP rs (PsOn false) (okv r)) (build_raster rs)) as [[p1 r1]| |],
    (a_page_loop md d 52 0 (mkAP rs (PsOn false) (okv s)) (build_raster rs)) as [[q1 r2]| |]; cbn in HX; try contradiction; cbn [bind]; auto.
  destruct HX as [HX HY]. cbn [fst snd] in *. subst r2. destruct r1 as [q2|e]; unfold StepRel; cbn; [|split; [auto|discriminate]].
  specialize (HY q2 eq_refl). split; [|auto]. destruct HY as (-> & _). reflexivity.
Qed.

Lemma next_same md p q : PageRel p q ->
  MRel (fun x y => fst x = fst y /\ (forall pg, fst x = Some (Ok pg) -> PageRel (snd x) (snd y))) (a_next md d p) (a_next md d q).
Proof.
  intros H. pose proof H as (ER & ES & HC). unfold a_next. rewrite <- ES. destruct (ap_state p) as [b|b|] eqn:E.
  - pose proof (on_page_same md p q H ltac:(eauto)) as HX.
    destruct (a_on_page md d p) as [[p1 r1]| |], (a_on_page md d q) as [[q1 r2]| |]; cbn in HX; try contradiction; cbn [bind]; auto.
    destruct HX as [HX HY]. cbn [fst snd] in *. subst r2. cbn. split; auto. intros pg [= ->]. eauto.
  - cbn. rewrite <- ER. split; auto. intros _ _. unfold PageRel. cbn. splits; auto.
    destruct HC as [HC|[HC|HC]]; [discriminate|injection HC; intros ->; auto|auto].
  - cbn. split; [reflexivity|discriminate].
Qed.

Lemma take_same md : forall ps p q, PageRel p q -> a_take md d (List.length ps) p = Val (map Ok ps) ->
  a_take md d (List.length ps) q = Val (map Ok ps) /\ a_take md d (S (List.length ps)) p = a_take md d (S (List.length ps)) q.
Proof.
  induction ps as [|P ps IH]; intros p q HP H.
  - split; [reflexivity|]. cbn [List.length a_take]. pose proof (next_same md p q HP) as HX.
    destruct (a_next md d p) as [[o p']| |], (a_next md d q) as [[o' q']| |]; cbn in HX; try contradiction; cbn [bind]; auto.
    destruct HX as [<- _]. destruct o; reflexivity.
  - cbn [List.length] in *. pose proof (next_same md p q HP) as HX. cbn [a_take] in H.
    destruct (a_next md d p) as [[o p']| |] eqn:En, (a_next md d q) as [[o' q']| |] eqn:En'; cbn in HX; try contradiction; try discriminate H.
    destruct HX as [<- HX]. cbn [bind] in H. destruct o as [x|]; [|discriminate]. apply bind_val in H as (l & Hl & E).
    injection E as -> ->. destruct (IH p' q' (HX P eq_refl) Hl) as [I1 I2].
    cbn [a_take]. rewrite En, En'. cbn [bind]. rewrite I1. cbn [bind]. split; [reflexivity|].
    change (bind (a_take md d (S (List.length ps)) p') (fun l => Val (Ok P :: l)) = bind (a_take md d (S (List.length ps)) q') (fun l => Val (Ok P :: l))).
    now rewrite I2.
Qed.

Lemma reordered md ms ms' vs ws : Meaning ms (map Ok vs) -> Meaning ms' (map Ok ws) -> SamePages vs ws ->
  Forall (Supports d) vs -> Forall (Supports d) ws -> forall ps,
  pages_take md d (List.length ps) (pages_new d ms) = Val (map Ok ps) ->
  pages_take md d (List.length ps) (pages_new d ms') = Val (map Ok ps)
  /\ pages_take md d (S (List.length ps)) (pages_new d ms) = pages_take md d (S (List.length ps)) (pages_new d ms').
Proof.
  intros HM HM' HS K K' ps H.
  destruct (Tokens_exists ms) as (ts & HT). destruct (Tokens_exists ms') as (ts' & HT').
  rewrite !(take_start md d _ ms _ (Reads_new _ _ HT)) in *. rewrite !(take_start md d _ ms' _ (Reads_new _ _ HT')) in *.
  rewrite (meaning_okv ms vs ts HT HM) in *. rewrite (meaning_okv ms' ws ts' HT' HM') in *.
  apply take_same; auto. unfold PageRel, a_start. cbn. splits; auto. right; right. exists vs, ws. splits; auto. split; [auto|split; auto].
Qed.

End Sign.
