(** Two runs of the renderer, one with everything moved (C73). *)

From Coq Require Import String Lia ZifyBool.
From Verif Require Import Base Str Multi Color Raster Font Graphic Config Sign Render
  Spec_Multi Spec_Color Spec_Sign Spec_Render Spec_Page Spec_Move
  Proofs_Str Proofs_Split Proofs_Norm Proofs_Parse Proofs_Tag Proofs_Iter Proofs_Machine Proofs_Reach Proofs_Pages Proofs_Page Proofs_Modes Proofs_Alike.
Open Scope list_scope.

(** ** Runs that both succeed *)

Definition Both {A B} (Q : A -> B -> Prop) (a : M A) (b : M B) : Prop :=
  match a, b with Val x, Val y => Q x y | _, _ => True end.
Definition oks2 {A B E F} (Q : A -> B -> Prop) (a : result A E) (b : result B F) : Prop :=
  match a, b with Ok x, Ok y => Q x y | _, _ => True end.

Lemma both_bind {A B A' B'} (Q : A -> B -> Prop) (P : A' -> B' -> Prop) a b k l :
  Both Q a b -> (forall x y, Q x y -> Both P (k x) (l y)) -> Both P (bind a k) (bind b l).
Proof. destruct a, b; cbn [Both bind]; auto; intros; try exact I; match goal with |- Both _ ?u _ => destruct u; exact I end. Qed.
Lemma both_try {A B A' B' E} (Q : A -> B -> Prop) (P : A' -> B' -> Prop) (a : M (result A E)) (b : M (result B E)) k l :
  Both (oks2 Q) a b -> (forall x y, Q x y -> Both (oks2 P) (k x) (l y)) -> Both (oks2 P) (try a k) (try b l).
Proof.
  intros H HK. destruct a as [[x|e]| |], b as [[y|f]| |]; cbn [try]; try exact I; cbn in H; auto;
    match goal with |- Both _ ?u ?v => first [destruct u as [[]| |]; exact I | destruct v as [[]| |]; exact I] end.
Qed.
Lemma both_same {A} (Q : A -> A -> Prop) a : (forall x, Q x x) -> Both Q a a.
Proof. intros H. destruct a; cbn; auto. Qed.
Lemma both_same_ok {A E} (Q : A -> A -> Prop) (a : M (result A E)) : (forall x, Q x x) -> Both (oks2 Q) a a.
Proof. intros H. apply both_same. intros [x|e]; cbn; auto. Qed.
Lemma both_impl {A B} (Q P : A -> B -> Prop) a b : Both Q a b -> (forall x y, Q x y -> P x y) -> Both P a b.
Proof. destruct a, b; cbn; auto. Qed.

Lemma both_chk16 a b : Both (fun x y => x = a /\ y = b) (chk16 Debug a) (chk16 Debug b).
Proof. unfold chk16, chk. destruct (_ && _); [|exact I]. destruct (_ && _); cbn; auto. Qed.
Lemma both_i32 a b : Both (fun x y => x = a /\ y = b) (chk_i32 Debug a) (chk_i32 Debug b).
Proof. unfold chk_i32. destruct (_ && _); [|exact I]. destruct (_ && _); cbn; auto. Qed.

(** One of the runs fails. *)
Ltac fails :=
  match goal with |- Both _ ?u ?v => solve [exact I | destruct u as [[]| |]; exact I | destruct v as [[]| |]; exact I] end.

Section Move.
Variables dx dy : Z.

(** ** Rasters *)

Definition MvR (bg : rgb) (p q : Raster rgb) : Prop :=
  r_width p = r_width q /\ r_height p = r_height q
  /\ (forall x y, r_pixel p x y = r_pixel q (x + dx) (y + dy))
  /\ (forall x y, in_raster p x y = false -> r_pixel p x y = bg)
  /\ (forall x y, in_raster q x y = false -> r_pixel q x y = bg).

Lemma set_mv bg p q x y c : MvR bg p q -> Both (MvR bg) (set_pixel p x y c) (set_pixel q (x + dx) (y + dy) c).
Proof.
  intros (W & H & P & O & O'). unfold set_pixel. destruct (in_raster p x y) eqn:I; [|exact Logic.I].
  destruct (in_raster q _ _) eqn:I'; [|exact Logic.I]. cbn. unfold MvR. cbn. splits; auto.
  - intros a b. replace (a + dx =? x + dx) with (a =? x) by lia. replace (b + dy =? y + dy) with (b =? y) by lia. now rewrite P.
  - intros a b Hab. change (in_raster p a b = false) in Hab. destruct ((a =? x) && (b =? y)) eqn:E; auto.
    rewrite andb_true_iff, !Z.eqb_eq in E. destruct E as [-> ->]. congruence.
  - intros a b Hab. change (in_raster q a b = false) in Hab. destruct ((a =? x + dx) && (b =? y + dy)) eqn:E; auto.
    rewrite andb_true_iff, !Z.eqb_eq in E. destruct E as [-> ->]. congruence.
Qed.

Lemma bits_mv bg x y w h c b is : forall p q xx yy, MvR bg p q ->
  Both (fun u v => MvR bg (fst (fst u)) (fst (fst v)) /\ snd (fst u) = snd (fst v) /\ snd u = snd v)
    (render_bits Debug p x y w h c b is xx yy) (render_bits Debug q (x + dx) (y + dy) w h c b is xx yy).
Proof.
  induction is as [|i is IH]; intros p q xx yy H; cbn [render_bits]; [cbn; auto|].
  apply (both_bind (MvR bg)).
  - destruct (negb _); [|exact H]. eapply both_bind; [apply both_i32|]. intros a a' [-> ->].
    eapply both_bind; [apply both_i32|]. intros b0 b0' [-> ->].
    replace (x + dx + xx) with (x + xx + dx) by lia. replace (y + dy + yy) with (y + yy + dy) by lia. now apply set_mv.
  - intros p1 q1 H1. cbv zeta. destruct (_ <=? _); [|now apply IH].
    eapply both_bind; [apply (both_same eq); auto|]. intros yy1 ? <-. destruct (_ <=? _); [cbn; auto|now apply IH].
Qed.

Lemma bytes_mv bg x y w h c bs : forall p q xx yy, MvR bg p q ->
  Both (MvR bg) (render_bytes Debug p x y w h c bs xx yy) (render_bytes Debug q (x + dx) (y + dy) w h c bs xx yy).
Proof.
  induction bs as [|b bs IH]; intros p q xx yy H; cbn [render_bytes]; [exact H|].
  eapply both_bind; [apply bits_mv; eauto|]. intros [[u1 u2] u3] [[v1 v2] v3] (H1 & H2 & H3). cbn [fst snd] in *. subst. now apply IH.
Qed.

Lemma text_mv bg f t x y cs c : forall p q xx, MvR bg p q ->
  Both (oks2 (MvR bg)) (render_text_loop Debug f p t x y cs c xx) (render_text_loop Debug f q t (x + dx) (y + dy) cs c xx).
Proof.
  induction t as [|ch t IH]; intros p q xx H; cbn [render_text_loop]; [exact H|].
  destruct (character f ch); [|exact I].
  eapply both_bind; [apply (both_same eq); auto|]. intros xx1 ? <-.
  eapply both_bind; [apply both_i32|]. intros a a' [-> ->].
  replace (x + dx + xx1) with (x + xx1 + dx) by lia.
  eapply both_bind; [apply bytes_mv; eauto|]. intros p1 q1 H1.
  eapply both_bind; [apply (both_same eq); auto|]. intros xx2 ? <-. now apply IH.
Qed.

Lemma map_err_mv {A B E F} (Q : A -> B -> Prop) (g : E -> F) x y : Both (oks2 Q) x y -> Both (oks2 Q) (map_err g x) (map_err g y).
Proof. destruct x as [[]| |], y as [[]| |]; cbn; auto. Qed.

(** ** Rectangles and graphics *)

Lemma inside r f : intersection Debug r f = Val r -> 0 < rwidth r -> 0 < rheight r ->
  rx f <= rx r /\ rx r + rwidth r <= rx f + rwidth f /\ ry f <= ry r /\ ry r + rheight r <= ry f + rheight f.
Proof.
  intros H W Hh. unfold intersection in H. cbv zeta in H.
  apply bind_val in H as (ar & A1 & H). apply chk16_debug in A1 as [-> _].
  apply bind_val in H as (br & A2 & H). apply chk16_debug in A2 as [-> _].
  apply bind_val in H as (ab & A3 & H). apply chk16_debug in A3 as [-> _].
  apply bind_val in H as (bb & A4 & H). apply chk16_debug in A4 as [-> _].
  destruct (_ && _).
  - apply bind_val in H as (w & A5 & H). apply chk16_debug in A5 as [-> _].
    apply bind_val in H as (h & A6 & H). apply chk16_debug in A6 as [-> _].
    injection H as H. pose proof (f_equal rx H) as E1. pose proof (f_equal ry H) as E2.
    pose proof (f_equal rwidth H) as E3. pose proof (f_equal rheight H) as E4. cbn in *. lia.
  - injection H as H. pose proof (f_equal rwidth H) as E3. cbn in E3. lia.
Qed.

Lemma rect_eqb_eq a b : rect_eqb a b = true -> a = b.
Proof. unfold rect_eqb. intros H. destruct a, b. cbn in H. f_equal; lia. Qed.

Lemma extend_same r f : 0 < rwidth r -> 0 < rheight r -> extend_width_height r f = r.
Proof.
  intros W H. unfold extend_width_height. replace (0 <? rwidth r) with true by lia. replace (0 <? rheight r) with true by lia. now destruct r.
Qed.

Lemma rect_mv bg p q r c v w : MvR bg p q -> 0 < rwidth r -> 0 < rheight r ->
  Both (oks2 (MvR bg)) (render_rect Debug p r c v) (render_rect Debug q (moved_rect dx dy r) c w).
Proof.
  intros (W & H & P & O & O') Hw Hh. unfold render_rect.
  eapply (both_bind (fun _ _ => True)); [destruct (_ && _); [|exact I]; destruct (_ && _); exact I|]. intros _ _ _. cbv zeta.
  rewrite !extend_same by auto.
  destruct (intersection Debug r _) as [i| |] eqn:E; [|exact I..]. cbn [bind].
  destruct (intersection Debug (moved_rect dx dy r) _) as [i'| |] eqn:E'; [|destruct (rect_eqb i r); exact I..]. cbn [bind].
  destruct (rect_eqb i r) eqn:B; [|fails]. destruct (rect_eqb i' _) eqn:B'; [|fails].
  apply rect_eqb_eq in B, B'. subst i i'. apply inside in E; auto. apply inside in E'; auto. cbn [rx ry rwidth rheight moved_rect] in E, E'.
  cbn [Both oks2]. unfold MvR. cbn [r_width r_height r_pixel copy_color moved_rect rx ry rwidth rheight]. splits; auto.
  - intros a b. rewrite <- P. unfold in_raster.
    match goal with |- (if ?u then _ else _) = (if ?v then _ else _) => replace v with u by lia end. reflexivity.
  - intros a b Hab. change (in_raster p a b = false) in Hab. rewrite Hab. cbn [andb]. auto.
  - intros a b Hab. change (in_raster q a b = false) in Hab. rewrite Hab. cbn [andb]. auto.
Qed.

Lemma graphic_mv bg g p q x y k : MvR bg p q ->
  Both (oks2 (MvR bg)) (render_graphic Debug g p x y k) (render_graphic Debug g q (x + dx) (y + dy) k).
Proof.
  intros HR. unfold render_graphic.
  eapply (both_bind (fun _ _ => True)); [destruct (_ && _); [|exact I]; destruct (_ && _); exact I|]. intros _ _ _. cbv zeta.
  destruct (_ || _); [fails|].
  destruct (_ || _); [fails|].
  assert (ROW : forall yy xs p q, MvR bg p q ->
    Both (MvR bg) (draw_row g k (fun c => c) (x - 1) (y - 1) p yy xs) (draw_row g k (fun c => c) (x + dx - 1) (y + dy - 1) q yy xs)).
  { intros yy xs. induction xs as [|a xs IH]; intros p0 q0 H0; cbn [draw_row]; [exact H0|].
    apply (both_bind (MvR bg)); [|intros p1 q1 H1; now apply IH].
    unfold draw_pixel. eapply both_bind; [apply (both_same eq); auto|]. intros [c|] ? <-; [|exact H0].
    replace (x + dx - 1 + a) with (x - 1 + a + dx) by lia. replace (y + dy - 1 + yy) with (y - 1 + yy + dy) by lia. now apply set_mv. }
  apply (both_bind (MvR bg)); [|intros p1 q1 H1; exact H1].
  revert p q HR. induction (zrange (g_height g)) as [|b ys IH]; intros p q HR; cbn [draw_rows]; [exact HR|].
  apply (both_bind (MvR bg)); [apply ROW; exact HR|]. intros p1 q1 H1. now apply IH.
Qed.

Definition okl (vs : list Value) : Outcomes := map (fun v => Val (Ok v)) vs.

Variable d : Dms.

Lemma graphics_mv bg vs ws : Forall2 (MovedValue dx dy) vs ws -> forall k p q, MvR bg p q ->
  Both (oks2 (MvR bg)) (render_graphics_loop Debug d (bare (okl vs)) k p) (render_graphics_loop Debug d (bare (okl ws)) k q).
Proof.
  induction 1 as [|v w vs ws H HS IH]; intros k p q HR; cbn [okl bare map render_graphics_loop]; [exact HR|].
  unfold okl, bare in IH. cbn [try].
  destruct H as [v NP|r H1 H2|r c H1 H2|n x y id|n|n X0 Y0].
  - destruct v; try (apply IH; assumption); try exact I; try exact HR; try (exfalso; apply NP; exact I).
    + destruct (set_background k c _) as [a [o|e]]; cbn [try]; [auto|exact I].
    + destruct (set_foreground k c _) as [a [o|e]]; cbn [try]; [auto|exact I].
  - exact HR.
  - assert (E : forall v w, fst (set_foreground k (Some c) v) = fst (set_foreground k (Some c) w)
        /\ ((exists e, snd (set_foreground k (Some c) v) = Err e) <-> (exists e, snd (set_foreground k (Some c) w) = Err e))).
    { intros v w. unfold set_foreground. destruct (ctx_rgb k c); cbn; split; auto; split; intros [e H0]; try discriminate H0; eauto. }
    destruct (E (VColorRectangle r c) (VColorRectangle (moved_rect dx dy r) c)) as [E1 E2].
    destruct (set_foreground k (Some c) (VColorRectangle r c)) as [a o], (set_foreground k (Some c) (VColorRectangle (moved_rect dx dy r) c)) as [a' o'].
    cbn [fst snd] in *. subst a'. destruct o, o'; cbn [try]; try fails.
    eapply both_try; [apply (rect_mv bg); assumption|]. intros p1 q1 HR1. now apply IH.
  - destruct (get_graphic d n id) as [g|e]; cbn [try]; [|exact I].
    eapply both_try; [apply map_err_mv, graphic_mv; eauto|]. intros p1 q1 HR1. now apply IH.
  - destruct (get_graphic d n None) as [g|e]; cbn [try]; [|exact I].
    eapply both_try; [apply map_err_mv, graphic_mv; eauto|]. intros p1 q1 HR1. now apply IH.
  - destruct (get_graphic d n None) as [g|e]; cbn [try]; [|exact I].
    eapply both_try; [apply map_err_mv; replace (render_graphic Debug g q 1 1 k) with (render_graphic Debug g q (1 + dx) (1 + dy) k)
      by (rewrite X0, Y0; reflexivity); apply graphic_mv; eauto|]. intros p1 q1 HR1. now apply IH.
Qed.

(** ** Text *)

(** The state of the other run: the rectangle is moved, or not yet one of the
    message's. *)
Definition sh (m : bool) (r : RenderState) : RenderState := if m then set_rect r (moved_rect dx dy (rs_rect r)) else r.
Definition sh_span (m : bool) (s : Span) : Span :=
  match s with SpText r t => SpText (sh m r) t | SpHex r t => SpHex (sh m r) t end.

Lemma sh_state m s : span_state (sh_span m s) = sh m (span_state s).
Proof. now destruct s. Qed.
Lemma sh_str m s : span_str (sh_span m s) = span_str s.
Proof. now destruct s. Qed.
Lemma sh_width m s fonts : span_width Debug (sh_span m s) fonts = span_width Debug s fonts.
Proof. now destruct s, m. Qed.
Lemma sh_between m s p fonts : char_spacing_between (sh_span m s) (sh_span m p) fonts = char_spacing_between s p fonts.
Proof. destruct s, p, m; reflexivity. Qed.

Lemma sh_filter m (f : RenderState -> RenderState -> bool) r l : (forall a b, f (sh m a) (sh m b) = f a b) ->
  filter (fun s => f (sh m r) (span_state s)) (map (sh_span m) l) = map (sh_span m) (filter (fun s => f r (span_state s)) l).
Proof.
  intros H. induction l as [|s l IH]; [reflexivity|]. cbn [map filter]. rewrite sh_state, H, IH. now destruct (f r (span_state s)).
Qed.

Lemma sh_horiz_loop m fonts rs l : forall prev b a,
  offset_horiz_loop Debug fonts (sh m rs) (map (sh_span m) l) (option_map (sh_span m) prev) b a = offset_horiz_loop Debug fonts rs l prev b a.
Proof.
  induction l as [|s l IH]; intros prev b a; cbn [map offset_horiz_loop]; [reflexivity|].
  rewrite sh_width, sh_state. replace (rs_span (sh m (span_state s))) with (rs_span (span_state s)) by now destruct m.
  replace (rs_span (sh m rs)) with (rs_span rs) by now destruct m.
  replace (match option_map (sh_span m) prev with Some ps => try (Val (char_spacing_between (sh_span m s) ps fonts)) _ | None => _ end)
    with (match prev with
          | Some ps => try (Val (char_spacing_between s ps fonts)) (fun w =>
             if rs_span (span_state s) <=? rs_span rs then
               let! b := chk16 Debug (b + w) in Val (Ok (b, a))
             else
               let! a := chk16 Debug (a + w) in Val (Ok (b, a)))
          | None => Val (Ok (b, a)) end)
    by (destruct prev; cbn [option_map]; [now rewrite sh_between|reflexivity]).
  apply try_cong. intros [b1 a1]. apply try_cong. intros w.
  destruct (_ <? _); apply bind_cong; intros x _; apply (IH (Some s)).
Qed.

Lemma sh_horiz m l s : offset_horiz Debug d (map (sh_span m) l) (sh_span m s) = offset_horiz Debug d l s.
Proof.
  unfold offset_horiz. cbv zeta. rewrite sh_state, (sh_filter m matches_span) by now destruct m.
  rewrite (sh_horiz_loop m (d_fonts d) (span_state s) _ None). now destruct m.
Qed.

Lemma sh_collect m fonts l : forall acc, collect_lines fonts (map (sh_span m) l) acc = collect_lines fonts l acc.
Proof.
  induction l as [|s l IH]; intros acc; cbn [map collect_lines]; [reflexivity|].
  assert (span_height (sh_span m s) fonts = span_height s fonts) as -> by now destruct s, m.
  assert (span_font_spacing (sh_span m s) fonts = span_font_spacing s fonts) as -> by now destruct s, m.
  assert (span_line_spacing (sh_span m s) = span_line_spacing s) as -> by now destruct s, m.
  rewrite sh_state. replace (rs_line (sh m (span_state s))) with (rs_line (span_state s)) by now destruct m.
  destruct (span_height s fonts); auto. destruct (span_font_spacing s fonts); auto. cbv zeta. destruct (_ <=? _); apply IH.
Qed.

Lemma sh_vert m l s : offset_vert Debug d (map (sh_span m) l) (sh_span m s) = offset_vert Debug d l s.
Proof.
  unfold offset_vert. cbv zeta. rewrite sh_state, (sh_filter m matches_line) by now destruct m.
  rewrite sh_collect. now destruct m.
Qed.

Definition aligned : Prop := dx mod r_char_width d = 0 /\ dy mod r_char_height d = 0.

Lemma div_step a k c : 0 < c -> k mod c = 0 -> (a + k) / c * c = a / c * c + k.
Proof.
  intros Hc H. apply Z.mod_divide in H; [|lia]. destruct H as [z ->]. rewrite Z.div_add by lia. lia.
Qed.

Ltac chk16s := eapply both_bind; [apply both_chk16|]; intros ? ? [-> ->].

Lemma x_mv l s : aligned -> Both (oks2 (fun x y => y = x + dx)) (span_x Debug d l s) (span_x Debug d (map (sh_span true) l) (sh_span true s)).
Proof.
  intros [HA _]. assert (0 < r_char_width d) by (unfold r_char_width; lia).
  unfold span_x. rewrite sh_state. cbn [sh rs_jl set_rect].
  destruct (rs_jl (span_state s)); try exact I; unfold span_x_left, span_x_center, span_x_right; rewrite sh_horiz, sh_state;
    cbn [sh rs_rect set_rect moved_rect rx rwidth]; chk16s.
  - eapply both_try; [apply (both_same_ok eq); auto|]. intros ba ? <-. chk16s. cbn. lia.
  - eapply both_try; [apply (both_same_ok eq); auto|]. intros [b a] ? <-. chk16s. chk16s. chk16s. chk16s. cbv zeta. chk16s. cbn [Both oks2].
    rewrite <- div_step by auto. f_equal. f_equal. lia.
  - eapply both_try; [apply (both_same_ok eq); auto|]. intros ba ? <-. chk16s. chk16s. cbn. lia.
Qed.

Lemma y_mv l s : aligned -> Both (oks2 (fun x y => y = x + dy)) (span_y Debug d l s) (span_y Debug d (map (sh_span true) l) (sh_span true s)).
Proof.
  intros [_ HA]. assert (0 < r_char_height d) by (unfold r_char_height; lia).
  unfold span_y. assert (span_height (sh_span true s) (d_fonts d) = span_height s (d_fonts d)) as -> by now destruct s.
  eapply (both_try (fun x y => y = x + dy)).
  - unfold baseline. rewrite sh_state. cbn [sh rs_jp set_rect].
    destruct (rs_jp (span_state s)); try exact I; unfold baseline_top, baseline_middle, baseline_bottom; rewrite sh_vert, sh_state;
      cbn [sh rs_rect set_rect moved_rect ry rheight]; chk16s.
    + eapply both_try; [apply (both_same_ok eq); auto|]. intros ba ? <-. chk16s. cbn. lia.
    + eapply both_try; [apply (both_same_ok eq); auto|]. intros [b a] ? <-. chk16s. chk16s. chk16s. chk16s. cbv zeta. chk16s. cbn [Both oks2].
      rewrite <- div_step by auto. f_equal. f_equal. lia.
    + eapply both_try; [apply (both_same_ok eq); auto|]. intros ba ? <-. chk16s. chk16s. cbn. lia.
  - intros x y ->. eapply both_try; [apply (both_same_ok eq); auto|]. intros h ? <-. chk16s. cbn. lia.
Qed.

Lemma spans_mv bg m all todo : (m = true -> aligned) -> (m = false -> Forall (fun s => span_str s = []) todo) ->
  forall p q, MvR bg p q ->
  Both (oks2 (MvR bg)) (render_spans_loop Debug d all todo p) (render_spans_loop Debug d (map (sh_span m) all) (map (sh_span m) todo) q).
Proof.
  intros HA. induction todo as [|s l IH]; intros HE p q HR; cbn [map render_spans_loop]; [exact HR|].
  assert (G : rs_get_font (span_state (sh_span m s)) (d_fonts d) = rs_get_font (span_state s) (d_fonts d)) by (rewrite sh_state; now destruct m).
  rewrite G.
  assert (C : forall f, char_spacing_font (sh_span m s) f = char_spacing_font s f) by (intros f; unfold char_spacing_font; rewrite sh_state; now destruct m).
  assert (F : foreground_rgb (rs_ctx (span_state (sh_span m s))) = foreground_rgb (rs_ctx (span_state s))) by (rewrite sh_state; now destruct m).
  assert (IH' : forall p q, MvR bg p q ->
    Both (oks2 (MvR bg)) (render_spans_loop Debug d all l p) (render_spans_loop Debug d (map (sh_span m) all) (map (sh_span m) l) q)).
  { apply IH. intros Em. specialize (HE Em). now inversion HE. }
  destruct m.
  - eapply both_try; [apply x_mv; auto|]. intros x ? ->. eapply both_try; [apply y_mv; auto|]. intros y ? ->.
    eapply both_try; [apply (both_same_ok eq); auto|]. intros f ? <-.
    eapply both_try; [|exact IH']. unfold span_render_text, font_render_text. rewrite C, F, sh_str. apply map_err_mv, text_mv, HR.
  - specialize (HE eq_refl). inversion HE as [|? ? E0 _]; subst.
    eapply (both_try (fun _ _ => True)); [match goal with |- Both _ ?u ?v => destruct u as [[]| |], v as [[]| |]; exact I end|]. intros x x' _.
    eapply (both_try (fun _ _ => True)); [match goal with |- Both _ ?u ?v => destruct u as [[]| |], v as [[]| |]; exact I end|]. intros y y' _.
    eapply both_try; [apply (both_same_ok eq); auto|]. intros f ? <-.
    eapply (both_try (MvR bg)); [|exact IH']. unfold span_render_text, font_render_text. rewrite sh_str, E0. exact HR.
Qed.

Lemma just_mv m l : check_justification (map (sh_span m) l) = check_justification l.
Proof.
  unfold check_justification. generalize JpOther, JlOther, 0. induction l as [|s l IH]; intros jp jl n; [reflexivity|].
  cbn [map check_just_loop]. rewrite sh_state.
  replace (rs_jp (sh m (span_state s))) with (rs_jp (span_state s)) by now destruct m.
  replace (rs_jl (sh m (span_state s))) with (rs_jl (span_state s)) by now destruct m.
  replace (rs_line (sh m (span_state s))) with (rs_line (span_state s)) by now destruct m.
  cbv zeta. destruct (_ || _); auto.
Qed.

Lemma text_spans_mv bg m l : (m = true -> aligned) -> (m = false -> Forall (fun s => span_str s = []) l) -> forall p q, MvR bg p q ->
  Both (oks2 (MvR bg)) (render_text_spans Debug d l p) (render_text_spans Debug d (map (sh_span m) l) q).
Proof.
  intros HA HE p q HR. unfold render_text_spans. rewrite just_mv.
  eapply both_try; [apply (both_same_ok eq); auto|]. intros _ _ _. now apply spans_mv.
Qed.

(** ** The loop over a text rectangle *)

Fixpoint framed (m : bool) (vs : list Value) : Prop :=
  match vs with
  | [] => True
  | VText _ :: r | VHexadecimalCharacter _ :: r => m = true /\ framed m r
  | VTextRectangle _ :: r => framed true r
  | VNewPage :: r => framed false r
  | _ :: r => framed m r
  end.

Definition flag (st : PageState) (m : bool) : bool := match st with PsOn false => m | _ => false end.

Definition EM (m : bool) (e f : AEnd) : Prop :=
  a_res e = Ok tt -> a_res f = Ok tt ->
  a_state e = a_state f /\ a_spans f = map (sh_span m) (a_spans e) /\ (m = false -> Forall (fun s => span_str s = []) (a_spans e))
  /\ exists vs ws k, a_rest e = okl vs /\ a_rest f = okl ws /\ Forall2 (MovedValue dx dy) vs ws
       /\ a_rs f = sh k (a_rs e) /\ (k = true -> aligned) /\ framed (flag (a_state e) k) vs.

Lemma tr_mv r : 0 < rwidth r -> 0 < rheight r ->
  Both (fun a b => match a, b with Some x, Some y => x = r /\ y = moved_rect dx dy r /\ aligned | _, _ => True end)
    (update_text_rectangle Debug d (rs_new d) r) (update_text_rectangle Debug d (rs_new d) (moved_rect dx dy r)).
Proof.
  intros W H. assert (CW : 0 < r_char_width d) by (unfold r_char_width; lia). assert (CH : 0 < r_char_height d) by (unfold r_char_height; lia).
  unfold update_text_rectangle. cbv zeta. rewrite !extend_same by auto.
  eapply (both_bind (fun _ _ => True)); [match goal with |- Both _ ?u ?v => destruct u, v; exact I end|]. intros i i' _.
  destruct (negb _); [match goal with |- Both _ _ ?v => destruct v; exact I end|].
  destruct (negb (rect_eqb i' _)); [match goal with |- Both _ ?u _ => destruct u as [[]| |]; exact I end|].
  cbn [moved_rect rx ry rwidth rheight].
  eapply both_bind; [apply both_chk16|]. intros ? ? [-> ->].
  destruct (negb ((rx r - 1) mod _ =? 0) || _) eqn:E1; [match goal with |- Both _ _ ?v => destruct v; exact I end|].
  destruct (negb ((rx r + dx - 1) mod _ =? 0) || _) eqn:E2; [match goal with |- Both _ ?u _ => destruct u as [[]| |]; exact I end|].
  eapply both_bind; [apply both_chk16|]. intros ? ? [-> ->].
  destruct (negb ((ry r - 1) mod _ =? 0) || _) eqn:E3; [match goal with |- Both _ _ ?v => destruct v; exact I end|].
  destruct (negb ((ry r + dy - 1) mod _ =? 0) || _) eqn:E4; [match goal with |- Both _ ?u _ => destruct u as [[]| |]; exact I end|].
  cbn [Both]. splits; auto. rewrite !orb_false_iff, !negb_false_iff, !Z.eqb_eq in *.
  destruct E1 as [E1 _], E2 as [E2 _], E3 as [E3 _], E4 as [E4 _]. split.
  - replace dx with ((rx r + dx - 1) - (rx r - 1)) by lia. rewrite Zminus_mod, E1, E2. now rewrite Z.mod_0_l by lia.
  - replace dy with ((ry r + dy - 1) - (ry r - 1)) by lia. rewrite Zminus_mod, E3, E4. now rewrite Z.mod_0_l by lia.
Qed.

Lemma rtr_mv m po vs ws : (m = true -> aligned) -> Forall2 (MovedValue dx dy) vs ws -> framed m vs -> forall r l lb,
  (m = false -> Forall (fun s => span_str s = []) l) ->
  Both (EM m) (a_rtr Debug d (rs_new d) po (okl vs) r l lb) (a_rtr Debug d (rs_new d) po (okl ws) (sh m r) (map (sh_span m) l) lb).
Proof.
  intros HA. induction 1 as [|v w vs ws H HS IH]; intros HF r l lb HE; cbn [okl map a_rtr bind].
  - cbn. intros _ _. splits; auto. exists [], [], m. splits; auto.
  - fold (okl vs) (okl ws).
    assert (GO : forall r r' lb, r' = sh m r -> framed m vs ->
      Both (EM m) (a_rtr Debug d (rs_new d) po (okl vs) r l lb) (a_rtr Debug d (rs_new d) po (okl ws) r' (map (sh_span m) l) lb))
      by (intros r1 ? lb1 ->; intros; now apply IH).
    assert (BAD : forall r s st l l' e e', Both (EM m) (Val (mkA r st (okl vs) l (Err e))) (Val (mkA s st (okl ws) l' (Err e')))).
    { intros. cbn. intros E0. discriminate E0. }
    destruct H as [v NP|q H1 H2|q c H1 H2|n x y id|n|n X0 Y0]; cbn [framed] in HF; try (apply GO; auto; fail).
    + destruct v; cbn [framed] in HF; try (apply GO; auto; fail); try (exfalso; apply NP; exact I); try apply BAD.
      * replace (rs_ctx (sh m r)) with (rs_ctx r) by now destruct m.
        destruct (set_foreground (rs_ctx r) c _) as [k [o|e]]; [|apply BAD]. apply GO; auto. now destruct m.
      * apply GO; auto. now destruct m.
      * destruct HF as [-> HF]. destruct (is_charb _); [|apply BAD]. cbn [sh rs_span set_rect].
        eapply both_bind; [apply (both_same eq); auto|]. intros a ? <-.
        change ([SpHex (sh true r) (fstr4 c)]) with (map (sh_span true) [SpHex r (fstr4 c)]).
        change ([SpHex (set_rect r (moved_rect dx dy (rs_rect r))) (fstr4 c)]) with (map (sh_span true) [SpHex r (fstr4 c)]). rewrite <- map_app.
        apply (IH HF (set_span r a)). discriminate.
      * destruct j as [[]|]; try apply BAD; (apply GO; auto; now destruct m).
      * destruct j as [[]|]; try apply BAD; (replace (rs_jp (sh m r)) with (rs_jp r) by now destruct m); (destruct (negb _); apply GO; auto; now destruct m).
      * match goal with |- context [if ?c then Val _ else _] => destruct c end; [apply BAD|].
        replace (rs_line (set_line_spacing (sh m r) x)) with (rs_line (set_line_spacing r x)) by now destruct m.
        eapply both_bind; [apply (both_same eq); auto|]. intros a ? <-.
        replace (if lb then map (sh_span m) l ++ [SpText (sh m r) []] else map (sh_span m) l) with (map (sh_span m) (if lb then l ++ [SpText r []] else l))
          by (destruct lb; [now rewrite map_app|reflexivity]).
        replace (set_span (set_line (set_line_spacing (sh m r) x) a) 0) with (sh m (set_span (set_line (set_line_spacing r x) a) 0)) by now destruct m.
        apply IH; auto. intros Em. destruct lb; auto. apply Forall_app. split; auto.
      * cbn. intros _ _. splits; auto. exists vs, ws, m. splits; auto. unfold flag. destruct po; cbn; exact HF.
      * destruct (_ && _); [apply BAD|]. apply GO; auto. now destruct m.
      * apply GO; auto. now destruct m.
      * destruct HF as [-> HF]. cbn [sh rs_span set_rect].
        eapply both_bind; [apply (both_same eq); auto|]. intros a ? <-.
        change ([SpText (set_rect r (moved_rect dx dy (rs_rect r))) t]) with (map (sh_span true) [SpText r t]). rewrite <- map_app.
        apply (IH HF (set_span r a)). discriminate.
    + eapply both_bind; [apply tr_mv; auto|]. intros [a|] [b|] H; try (cbn; intros E0 E1; discriminate).
      destruct H as (-> & -> & HL). cbn. intros _ _. splits; auto. exists vs, ws, true. splits; auto. now destruct m.
Qed.

(** ** Pages *)

Definition Rest (f : bool) (p q : AP) (k : bool) : Prop :=
  ap_state p = ap_state q /\ ap_rs q = sh k (ap_rs p) /\ (k = true -> aligned)
  /\ exists vs ws, ap_rest p = okl vs /\ ap_rest q = okl ws /\ Forall2 (MovedValue dx dy) vs ws /\ framed f vs.

Definition PM {A B} (S : AP -> AP -> Prop) (Q : A -> B -> Prop) (x : AP * result A SyntaxError) (y : AP * result B SyntaxError) : Prop :=
  oks2 (fun a b => S (fst x) (fst y) /\ Q a b) (snd x) (snd y).

Lemma text_rect_mv bg p q k a b : Rest k p q k -> MvR bg a b ->
  Both (PM (fun p q => exists k, Rest (flag (ap_state p) k) p q k) (MvR bg)) (a_text_rect Debug d p a) (a_text_rect Debug d q b).
Proof.
  intros (ES & ER & HA & vs & ws & EV & EW & HF & HFr) HR. unfold a_text_rect. rewrite ER, EV, EW.
  replace (rs_off_time (sh k (ap_rs p))) with (rs_off_time (ap_rs p)) by now destruct k.
  eapply both_bind; [apply (rtr_mv k _ vs ws HA HF HFr (ap_rs p) [] true); constructor|].
  intros e f HE. destruct (a_res e) as [[]|] eqn:Re.
  - destruct (a_res f) as [[]|] eqn:Rf.
    + destruct (HE Re Rf) as (E1 & E2 & E3 & vs' & ws' & k' & E4 & E5 & E6 & E7 & E8 & E9). rewrite E2.
      eapply both_bind; [apply text_spans_mv; eauto|]. intros r r' HX. cbn [Both]. unfold PM. cbn [fst snd].
      destruct r, r'; try exact I. cbn in HX |- *. split; auto. exists k'. unfold Rest. cbn. splits; auto. exists vs', ws'. splits; auto.
    + match goal with |- Both _ ?u _ => destruct u as [[? []]| |]; exact I end.
  - match goal with |- Both _ _ ?u => destruct u as [[? []]| |]; exact I end.
Qed.

Lemma page_loop_mv bg fuel : forall n p q k a b, Rest (flag (ap_state p) k) p q k -> MvR bg a b ->
  Both (PM (fun p q => exists k, Rest false p q k) (MvR bg)) (a_page_loop Debug d fuel n p a) (a_page_loop Debug d fuel n q b).
Proof.
  induction fuel as [|f IH]; intros n p q k a b HP HR; cbn [a_page_loop]; [exact I|].
  pose proof HP as (ES & ER & HA & vs & ws & EV & EW & HF & HFr). rewrite <- ES.
  assert (END : ap_state p <> PsOn false -> Both (PM (fun p q => exists k, Rest false p q k) (MvR bg)) (Val (p, Ok a)) (Val (q, Ok b))).
  { intros N. cbn. unfold PM. cbn. split; auto. exists k. unfold Rest. splits; auto. exists vs, ws. splits; auto.
    destruct (ap_state p) as [[]|[]|]; try exact HFr. now destruct N. }
  destruct (ap_state p) as [[]|[]|] eqn:Es; try (apply END; discriminate). clear END.
  eapply both_bind; [rewrite EV, EW; replace (rs_ctx (ap_rs q)) with (rs_ctx (ap_rs p)) by (rewrite ER; now destruct k); apply graphics_mv; eauto|].
  intros g g' HX. destruct g as [r|e].
  - destruct g' as [r'|e'].
    + cbn in HX. assert (HK : Rest k p q k) by (unfold Rest; rewrite Es in *; splits; auto; exists vs, ws; auto). eapply both_bind; [apply (text_rect_mv bg p q k); auto|]. intros [p1 r1] [q1 r2] H1. unfold PM in H1. cbn [fst snd] in H1.
      destruct r1 as [r1|e].
      * destruct r2 as [r2|e'].
        -- destruct H1 as [[k1 H1] H2]. cbv zeta. destruct (_ <? _); [exact I|]. eapply IH; eauto.
        -- match goal with |- Both _ ?u _ => destruct u as [[? []]| |]; exact I end.
      * match goal with |- Both _ _ ?u => destruct u as [[? []]| |]; exact I end.
    + match goal with |- Both _ ?u _ => destruct u as [[? []]| |]; exact I end.
  - match goal with |- Both _ _ ?u => destruct u as [[? []]| |]; exact I end.
Qed.

Lemma build_mv r : MvR (background_rgb (rs_ctx r)) (build_raster r) (build_raster r).
Proof. unfold MvR. cbn. splits; auto. Qed.

Lemma update_mv vs ws : Forall2 (MovedValue dx dy) vs ws -> forall ds r,
  Both (fun a b => oks2 (fun _ _ => fst a = fst b) (snd a) (snd b)) (update_page_loop ds (bare (okl vs)) r) (update_page_loop ds (bare (okl ws)) r).
Proof.
  induction 1 as [|v w vs ws H HS IH]; intros ds r; cbn [okl bare map update_page_loop bind]; [cbn; auto|]. unfold okl, bare in IH.
  destruct H as [v NP|q H1 H2|q c H1 H2|n x y id|n|n X0 Y0]; try apply IH.
  destruct v; try apply IH; try (cbn; auto; fail); try (exfalso; apply NP; exact I);
    destruct (set_background _ _ _) as [k [o|e]]; try apply IH; exact I.
Qed.

Lemma shown_mv bg p q : MvR bg p q -> forall x y, shown bg p x y = shown bg q (x + dx) (y + dy).
Proof.
  intros (W & H & P & O & O') x y. unfold shown.
  destruct (in_raster p x y) eqn:E, (in_raster q (x + dx) (y + dy)) eqn:E'; auto.
  - rewrite P. now apply O'.
  - rewrite <- P. symmetry. now apply O.
Qed.

Lemma on_page_mv p q k : Rest false p q k ->
  Both (PM (fun p q => exists k, Rest false p q k) (MovedPage dx dy)) (a_on_page Debug d p) (a_on_page Debug d q).
Proof.
  intros (ES & ER & HA & vs & ws & EV & EW & HF & HFr). unfold a_on_page. cbv zeta.
  eapply (both_bind (fun _ _ => True)); [match goal with |- Both _ ?u ?v => destruct u, v; exact I end|]. intros c c' _.
  destruct c as [c|e]; [|match goal with |- Both _ _ ?u => destruct u as [[? []]| |]; exact I end].
  destruct c' as [c'|e']; [|match goal with |- Both _ ?u _ => destruct u as [[? []]| |]; exact I end].
  assert (EU : update_page_state (rs_new d) (bare (ap_rest q)) (ap_rs q) = update_page_state (rs_new d) (bare (okl ws)) (ap_rs p)).
  { rewrite ER, EW. unfold update_page_state. now destruct k. }
  rewrite EU. unfold update_page_state. cbv zeta. rewrite EV at 1.
  eapply both_bind; [apply update_mv; exact HF|]. intros [rs u] [rs' u'] HU. cbn [fst snd] in HU.
  destruct u as [u|e]; [|match goal with |- Both _ _ ?u => destruct u as [[? []]| |]; exact I end].
  destruct u' as [u'|e']; [|match goal with |- Both _ ?u _ => destruct u as [[? []]| |]; exact I end].
  cbn in HU. subst rs'.
  eapply both_bind.
  - apply (page_loop_mv (background_rgb (rs_ctx rs)) 52 0 _ _ false); [|apply build_mv].
    unfold Rest. cbn. splits; auto. discriminate. exists vs, ws. splits; auto.
  - intros [p1 r1] [p2 r2] H. unfold PM in H. cbn [fst snd] in H.
    destruct r1 as [r1|e]; [|destruct r2; exact I]. destruct r2 as [r2|e']; [|exact I].
    cbn in H. destruct H as [[k1 H1] H2]. cbn. unfold PM. cbn. split; [eauto|]. unfold MovedPage. cbn.
    destruct H1 as (_ & E & _). rewrite E. splits; [now destruct k1|apply H2|apply H2|]. exists (background_rgb (rs_ctx rs)). now apply shown_mv.
Qed.

Lemma take_mv n : forall p q k, Rest false p q k -> forall ps ps',
  a_take Debug d n p = Val (map Ok ps) -> a_take Debug d n q = Val (map Ok ps') -> Forall2 (MovedPage dx dy) ps ps'.
Proof.
  induction n as [|n IH]; intros p q k HP ps ps' H H'; cbn [a_take] in H, H'.
  - destruct ps; [|discriminate]. destruct ps'; [constructor|discriminate].
  - apply bind_val in H as ([o p1] & N & H). apply bind_val in H' as ([o' q1] & N' & H').
    assert (HN : match o, o' with
                 | Some (Ok a), Some (Ok b) => MovedPage dx dy a b /\ exists k, Rest false p1 q1 k
                 | None, None => True | Some (Err _), _ | _, Some (Err _) => True | _, _ => False end).
    { pose proof HP as (ES & ER & HA & vs & ws & EV & EW & HF & HFr). unfold a_next in N, N'. rewrite <- ES in N'.
      destruct (ap_state p) as [m|m|] eqn:Es.
      - pose proof (on_page_mv p q k HP) as HO. destruct (a_on_page Debug d p) as [[p2 r2]| |]; try discriminate N.
        destruct (a_on_page Debug d q) as [[q2 s2]| |]; try discriminate N'. cbn [bind fst snd] in N, N'. injection N as <- <-. injection N' as <- <-.
        cbn in HO. unfold PM in HO. cbn [fst snd] in HO. destruct r2, s2; auto. cbn in HO. tauto.
      - injection N as <- <-. injection N' as <- <-. split.
        + unfold MovedPage. cbn [pg_duration pg_raster]. rewrite ER. splits; try now destruct k.
          exists (background_rgb (rs_ctx (ap_rs p))). intros x y. unfold shown. cbn.
          replace (background_rgb (rs_ctx (sh k (ap_rs p)))) with (background_rgb (rs_ctx (ap_rs p))) by now destruct k.
          destruct (in_raster _ _ _), (in_raster _ _ _); reflexivity.
        + exists k. unfold Rest. cbn. splits; auto. exists vs, ws. auto.
      - injection N as <- <-. injection N' as <- <-. exact I. }
    destruct o as [[a|e]|].
    + apply bind_val in H as (l & T & H). injection H as H. destruct ps as [|x ps]; [discriminate H|]. injection H as <- ->.
      destruct o' as [[b|e]|]; [| |contradiction].
      * apply bind_val in H' as (l' & T' & H'). injection H' as H'. destruct ps' as [|x' ps']; [discriminate H'|]. injection H' as <- ->.
        destruct HN as [HN [k1 HK]]. constructor; eauto.
      * apply bind_val in H' as (l' & T' & H'). injection H' as H'. destruct ps'; discriminate H'.
    + apply bind_val in H as (l & T & H). injection H as H. destruct ps; discriminate H.
    + injection H as H. destruct ps; [|discriminate H]. destruct o' as [[b|e]|].
      * contradiction.
      * apply bind_val in H' as (l' & T' & H'). injection H' as H'. destruct ps'; discriminate H'.
      * injection H' as H'. destruct ps'; [constructor|discriminate H'].
Qed.

End Move.

(** ** Messages *)

Lemma framed_of m vs :
  (forall a v b, vs = a ++ v :: b -> match v with VText _ | VHexadecimalCharacter _ => True | _ => False end ->
    (exists a1 r a2, a = a1 ++ VTextRectangle r :: a2 /\ ~ In VNewPage a2) \/ (m = true /\ ~ In VNewPage a)) -> framed m vs.
Proof.
  revert m. induction vs as [|v vs IH]; intros m H; [exact I|].
  assert (HV : match v with VText _ | VHexadecimalCharacter _ => True | _ => False end -> m = true).
  { intros Hv. destruct (H [] v vs eq_refl Hv) as [(a1 & r & a2 & E & _)|[E _]]; auto. destruct a1; discriminate E. }
  assert (HR : forall k, (v = VNewPage \/ (exists r, v = VTextRectangle r) \/ k = m) -> (v = VNewPage -> k = false) ->
                         ((exists r, v = VTextRectangle r) -> k = true) -> framed k vs).
  { intros k Hk K1 K2. apply IH. intros a u b -> Hu. destruct (H (v :: a) u b eq_refl Hu) as [(a1 & r & a2 & E & N)|[E N]].
    - destruct a1 as [|x a1]; cbn in E; injection E as -> ->.
      + right. split; [apply K2; eauto|auto].
      + left. exists a1, r, a2. auto.
    - right. cbn in N. split; [|tauto]. destruct Hk as [->|[Hk| ->]]; auto. }
  destruct v; cbn [framed]; try (apply HR; [auto|discriminate|intros [? E]; discriminate E]).
  - split; [apply HV; exact I|]. apply HR; [auto|discriminate|intros [? E]; discriminate E].
  - apply HR; [auto|reflexivity|intros [? E]; discriminate E].
  - split; [apply HV; exact I|]. apply HR; [auto|discriminate|intros [? E]; discriminate E].
  - apply HR; [eauto|discriminate|reflexivity].
Qed.

Lemma meaning_okl ms vs : Meaning ms (map Ok vs) -> Reads (ms_new ms) (okl vs).
Proof.
  intros (ts & HT & HD). pose proof (Reads_new _ _ HT) as HR. apply tokens_values in HD; [|exact (Tokens_Token _ _ HT)].
  rewrite HD, map_map in HR. exact HR.
Qed.

Lemma moved dx dy d n ms ms' vs vs' ps ps' : Meaning ms (map Ok vs) -> Meaning ms' (map Ok vs') ->
  Forall2 (MovedValue dx dy) vs vs' -> Framed vs ->
  pages_take Debug d n (pages_new d ms) = Val (map Ok ps) -> pages_take Debug d n (pages_new d ms') = Val (map Ok ps') ->
  Forall2 (MovedPage dx dy) ps ps'.
Proof.
  intros HM HM' HV HF. rewrite (take_start Debug d n ms _ (meaning_okl _ _ HM)), (take_start Debug d n ms' _ (meaning_okl _ _ HM')).
  apply (take_mv dx dy d n _ _ false). unfold Rest, a_start. cbn [ap_state ap_rs ap_rest]. splits; auto; [discriminate|].
  exists vs, vs'. splits; auto. apply framed_of. intros a v b E Hv. left. eapply HF; eauto.
Qed.

Lemma debug_release d n ms l : pages_take Debug d n (pages_new d ms) = Val l -> pages_take Release d n (pages_new d ms) = Val l.
Proof.
  destruct (Tokens_exists ms) as (ts & HT). rewrite !(take_start _ d n ms _ (Reads_new _ _ HT)). apply agree_take.
Qed.
