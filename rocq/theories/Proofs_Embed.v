(** A run of the renderer, and one on a larger sign with everything moved (C74). *)

From Coq Require Import String Lia ZifyBool.
From Verif Require Import Base Str Multi Color Raster Font Graphic Config Sign Render
  Spec_Multi Spec_Color Spec_Font Spec_Sign Spec_Render Spec_Page Spec_Move Spec_Embed
  Proofs_Str Proofs_Split Proofs_Norm Proofs_Parse Proofs_Tag Proofs_Iter Proofs_Machine Proofs_Reach Proofs_Pages Proofs_Page Proofs_Modes Proofs_Alike Proofs_Sign Proofs_Move.
Open Scope list_scope.

(** ** When the first run succeeds, so does the second *)

Definition Sim {A B} (Q : A -> B -> Prop) (a : M A) (b : M B) : Prop := forall x, a = Val x -> exists y, b = Val y /\ Q x y.
Definition SimR {A B E F} (Q : A -> B -> Prop) (a : M (result A E)) (b : M (result B F)) : Prop :=
  forall x, a = Val (Ok x) -> exists y, b = Val (Ok y) /\ Q x y.

Lemma sim_bind {A B A' B'} (Q : A -> B -> Prop) (P : A' -> B' -> Prop) a b k l :
  Sim Q a b -> (forall x y, Q x y -> Sim P (k x) (l y)) -> Sim P (bind a k) (bind b l).
Proof. intros H HK r E. apply bind_val in E as (x & E & Ek). destruct (H _ E) as (y & -> & HQ). exact (HK _ _ HQ _ Ek). Qed.
Lemma sim_bindr {A B A' B' E F} (Q : A -> B -> Prop) (P : A' -> B' -> Prop) a b (k : A -> M (result A' E)) (l : B -> M (result B' F)) :
  Sim Q a b -> (forall x y, Q x y -> SimR P (k x) (l y)) -> SimR P (bind a k) (bind b l).
Proof. intros H HK r Er. apply bind_val in Er as (x & Ex & Ek). destruct (H _ Ex) as (y & -> & HQ). exact (HK _ _ HQ _ Ek). Qed.
Lemma sim_try {A B A' B' E} (Q : A -> B -> Prop) (P : A' -> B' -> Prop) (a : M (result A E)) (b : M (result B E)) k l :
  SimR Q a b -> (forall x y, Q x y -> SimR P (k x) (l y)) -> SimR P (try a k) (try b l).
Proof. intros H HK r Er. apply try_ok in Er as (x & Ex & Ek). destruct (H _ Ex) as (y & -> & HQ). exact (HK _ _ HQ _ Ek). Qed.
Lemma sim_same {A} (Q : A -> A -> Prop) a : (forall x, Q x x) -> Sim Q a a.
Proof. intros H x ->. eauto. Qed.
Lemma sim_same_ok {A E} (Q : A -> A -> Prop) (a : M (result A E)) : (forall x, Q x x) -> SimR Q a a.
Proof. intros H x ->. eauto. Qed.
Lemma sim_val {A B} (Q : A -> B -> Prop) x y : Q x y -> Sim Q (Val x) (Val y).
Proof. intros H ? [= <-]. eauto. Qed.
Lemma sim_ok {A B E F} (Q : A -> B -> Prop) x y : Q x y -> SimR Q (Val (@Ok A E x)) (Val (@Ok B F y)).
Proof. intros H ? [= <-]. eauto. Qed.
Lemma sim_err {A B E F} (Q : A -> B -> Prop) e (b : M (result B F)) : SimR Q (Val (@Err A E e)) b.
Proof. intros ? [=]. Qed.

Lemma chk16_val n : 0 <= n < 65536 -> chk16 Debug n = Val n.
Proof. intros H. unfold chk16, chk. replace (_ && _) with true by lia. reflexivity. Qed.
Lemma i32_val n : -2147483648 <= n < 2147483648 -> chk_i32 Debug n = Val n.
Proof. intros H. unfold chk_i32. replace (_ && _) with true by lia. reflexivity. Qed.
Lemma i32_debug n k : chk_i32 Debug n = Val k -> k = n /\ -2147483648 <= n < 2147483648.
Proof. unfold chk_i32. destruct (_ && _) eqn:E; [|discriminate]. intros [= <-]. split; [reflexivity|lia]. Qed.
Lemma chk16_deb n k : chk16 Debug n = Val k -> k = n /\ 0 <= n < 65536.
Proof. intros H. apply chk16_debug in H as [-> H]. unfold u16 in H. lia. Qed.

Lemma sim_chk16 a b : (0 <= a < 65536 -> 0 <= b < 65536) -> Sim (fun x y => x = a /\ y = b /\ 0 <= a < 65536) (chk16 Debug a) (chk16 Debug b).
Proof. intros H x E. apply chk16_deb in E as [-> E]. exists b. rewrite chk16_val by auto. auto. Qed.

Section Grow.
Variables dx dy : Z.
Variables d d' : Dms.
Hypothesis HS : SetInto dx dy d d'.
Hypothesis HFonts : table_fields (d_fonts d).

Notation w := (sign_width_pixels (d_vms_cfg d)).
Notation h := (sign_height_pixels (d_vms_cfg d)).
Notation w' := (sign_width_pixels (d_vms_cfg d')).
Notation h' := (sign_height_pixels (d_vms_cfg d')).
Notation full := (mkRect 1 1 w h).
Notation full' := (mkRect 1 1 w' h').

Lemma wide : 0 <= dx /\ 0 <= w /\ w + dx <= w' < 65535.
Proof. apply HS. Qed.
Lemma tall : 0 <= dy /\ 0 <= h /\ h + dy <= h' < 65535.
Proof. apply HS. Qed.
Lemma fonts' : d_fonts d' = d_fonts d.
Proof. symmetry. apply HS. Qed.
Lemma graphics' n id g : get_graphic d n id = Ok g -> get_graphic d' n id = Ok g.
Proof.
  unfold get_graphic. destruct (graphic_lookup (d_graphics d) n) as [g0|] eqn:E; [|discriminate].
  apply FirstGraphic_lookup in E. assert (FirstGraphic (d_graphics d') n g0) as E' by now apply HS. apply FirstGraphic_lookup in E'. now rewrite E'.
Qed.
Lemma multi' : d_multi_cfg d' = d_multi_cfg d.
Proof. symmetry. apply HS. Qed.
Lemma cw' : r_char_width d' = r_char_width d.
Proof. unfold r_char_width, char_width. destruct HS as (_ & _ & [E _] & _). now rewrite E. Qed.
Lemma ch' : r_char_height d' = r_char_height d.
Proof. unfold r_char_height, char_height. destruct HS as (_ & _ & [_ E] & _). now rewrite E. Qed.
Lemma cell' : char_height d' = char_height d /\ char_width d' = char_width d.
Proof. unfold char_width, char_height. destruct HS as (_ & _ & [E1 E2] & _). auto. Qed.
Lemma cells : aligned dx dy d.
Proof. apply HS. Qed.

(** ** Rasters *)

Definition MvG (bg : rgb) (p q : Raster rgb) : Prop :=
  (r_width p = w /\ r_height p = h) /\ (r_width q = w' /\ r_height q = h')
  /\ (forall x y, r_pixel p x y = r_pixel q (x + dx) (y + dy))
  /\ (forall x y, in_raster p x y = false -> r_pixel p x y = bg)
  /\ (forall x y, in_raster q x y = false -> r_pixel q x y = bg).

Lemma in_grown bg p q x y : MvG bg p q -> in_raster p x y = true -> in_raster q (x + dx) (y + dy) = true /\ 0 <= x < w /\ 0 <= y < h.
Proof.
  intros ([W H] & [W' H'] & _) I. unfold in_raster in *. rewrite W, H in I. rewrite W', H'. pose proof wide. pose proof tall. lia.
Qed.

Lemma set_gr bg p q x y c : MvG bg p q -> Sim (fun u v => MvG bg u v /\ 0 <= x < w /\ 0 <= y < h) (set_pixel p x y c) (set_pixel q (x + dx) (y + dy) c).
Proof.
  intros HR r E. unfold set_pixel in E. destruct (in_raster p x y) eqn:I; [|discriminate E]. injection E as <-.
  destruct (in_grown _ _ _ _ _ HR I) as (I' & BX & BY). unfold set_pixel. rewrite I'. eexists. split; [reflexivity|]. splits; try lia.
  destruct HR as (S & S' & P & O & O'). unfold MvG. cbn. splits; try apply S; try apply S'.
  - intros a b. replace (a + dx =? x + dx) with (a =? x) by lia. replace (b + dy =? y + dy) with (b =? y) by lia. now rewrite P.
  - intros a b Hab. change (in_raster p a b = false) in Hab. destruct ((a =? x) && (b =? y)) eqn:E; auto.
    rewrite andb_true_iff, !Z.eqb_eq in E. destruct E as [-> ->]. congruence.
  - intros a b Hab. change (in_raster q a b = false) in Hab. destruct ((a =? x + dx) && (b =? y + dy)) eqn:E; auto.
    rewrite andb_true_iff, !Z.eqb_eq in E. destruct E as [-> ->]. congruence.
Qed.

Lemma bits_gr bg x y cw_ ch_ c b is : forall p q xx yy, MvG bg p q ->
  Sim (fun u v => MvG bg (fst (fst u)) (fst (fst v)) /\ snd (fst u) = snd (fst v) /\ snd u = snd v)
    (render_bits Debug p x y cw_ ch_ c b is xx yy) (render_bits Debug q (x + dx) (y + dy) cw_ ch_ c b is xx yy).
Proof.
  pose proof wide. pose proof tall.
  induction is as [|i is IH]; intros p q xx yy HR; cbn [render_bits]; [apply sim_val; auto|].
  apply (sim_bind (MvG bg)).
  - destruct (negb _); [|now apply sim_val]. intros r E. apply bind_val in E as (a & E1 & E). apply i32_debug in E1 as [-> B1].
    apply bind_val in E as (a & E2 & E). apply i32_debug in E2 as [-> B2].
    destruct (set_gr bg p q _ _ c HR _ E) as (v & EV & HV & BX & BY). exists v. split; [|exact HV].
    rewrite i32_val by lia. cbn [bind]. rewrite i32_val by lia. cbn [bind].
    replace (x + dx + xx) with (x + xx + dx) by lia. replace (y + dy + yy) with (y + yy + dy) by lia. exact EV.
  - intros p1 q1 H1. cbv zeta. destruct (_ <=? _); [|now apply IH].
    eapply sim_bind; [apply (sim_same eq); auto|]. intros yy1 ? <-. destruct (_ <=? _); [apply sim_val; auto|now apply IH].
Qed.

Lemma bytes_gr bg x y cw_ ch_ c bs : forall p q xx yy, MvG bg p q ->
  Sim (MvG bg) (render_bytes Debug p x y cw_ ch_ c bs xx yy) (render_bytes Debug q (x + dx) (y + dy) cw_ ch_ c bs xx yy).
Proof.
  induction bs as [|b bs IH]; intros p q xx yy H; cbn [render_bytes]; [now apply sim_val|].
  eapply sim_bind; [apply bits_gr; eauto|]. intros [[u1 u2] u3] [[v1 v2] v3] (H1 & H2 & H3). cbn [fst snd] in *. subst. now apply IH.
Qed.

Lemma text_gr bg f t x y cs c : 0 <= x < 65536 -> forall p q xx tw, MvG bg p q -> 0 <= xx -> text_width_loop Debug f cs t xx = Val (Ok tw) ->
  SimR (MvG bg) (render_text_loop Debug f p t x y cs c xx) (render_text_loop Debug f q t (x + dx) (y + dy) cs c xx).
Proof.
  intros BX. pose proof wide. induction t as [|ch t IH]; intros p q xx tw HR X0 HT; cbn [render_text_loop]; [now apply sim_ok|].
  cbn [text_width_loop] in HT. destruct (character f ch) as [chr|]; [|apply sim_err].
  apply bind_val in HT as (x1 & E1 & HT). apply bind_val in HT as (x2 & E2 & HT).
  assert (B1 : (if 0 <? xx then chk_i32 Debug (xx + cs) else Val xx) = Val x1 /\ 0 <= x1 < 65536).
  { destruct (0 <? xx) eqn:E0.
    - apply chk16_deb in E1 as [-> B]. rewrite i32_val by lia. auto.
    - injection E1 as <-. split; auto. lia. }
  destruct B1 as [-> B1]. apply chk16_deb in E2 as [-> B2]. cbn [bind].
  rewrite (i32_val (x + x1)), (i32_val (x + dx + x1)), (i32_val (x1 + c_width chr)) by lia. cbn [bind].
  replace (x + dx + x1) with (x + x1 + dx) by lia.
  eapply sim_bindr; [apply bytes_gr; eauto|]. intros p1 q1 H1.
  eapply IH; eauto. lia.
Qed.

Lemma map_err_sim {A B E F} (Q : A -> B -> Prop) (g : E -> F) x y : SimR Q x y -> SimR Q (map_err g x) (map_err g y).
Proof. intros H r Er. apply map_err_ok in Er. destruct (H _ Er) as (v & -> & HV). exists v. auto. Qed.

(** ** Rectangles and graphics *)

(** A rectangle of the message on the sign. *)
Definition on (r : Rectangle) : Prop := 1 <= rx r /\ rx r + rwidth r <= 1 + w /\ 1 <= ry r /\ ry r + rheight r <= 1 + h /\ 0 < rwidth r /\ 0 < rheight r.

Lemma on_of r : intersection Debug r full = Val r -> 0 < rwidth r -> 0 < rheight r -> on r.
Proof. intros H W Hh. destruct (inside _ _ H W Hh) as (A & B & C & D). cbn [rx ry rwidth rheight] in *. unfold on. lia. Qed.

Lemma on_moved r : on r -> intersection Debug (moved_rect dx dy r) full' = Val (moved_rect dx dy r).
Proof.
  unfold on. intros H. pose proof wide. pose proof tall. unfold intersection. cbn [moved_rect rx ry rwidth rheight]. cbv zeta.
  repeat (rewrite chk16_val by lia; cbn [bind]). replace (_ && _) with true by lia.
  repeat (rewrite chk16_val by lia; cbn [bind]).
  unfold moved_rect. f_equal. f_equal; lia.
Qed.

Lemma rect_eqb_refl r : rect_eqb r r = true.
Proof. unfold rect_eqb. destruct r. cbn. lia. Qed.

Lemma rect_gr bg p q r c v u : MvG bg p q -> 0 < rwidth r -> 0 < rheight r ->
  SimR (MvG bg) (render_rect Debug p r c v) (render_rect Debug q (moved_rect dx dy r) c u).
Proof.
  intros ([W H] & [W' H'] & P & O & O') Hw Hh res E. pose proof wide. pose proof tall. unfold render_rect in *.
  apply bind_val in E as (? & E0 & E). destruct (_ && _) eqn:B0; [|discriminate E0]. clear E0.
  cbv zeta in E. rewrite W, H, extend_same in E by auto. apply bind_val in E as (i & E1 & E).
  destruct (rect_eqb i r) eqn:B; [|discriminate E]. apply rect_eqb_eq in B. subst i. injection E as <-.
  pose proof (on_of _ E1 Hw Hh) as HO. rewrite W', H'. cbv zeta. rewrite extend_same by auto. rewrite (on_moved r HO).
  unfold on in HO. replace (_ && _) with true by (cbn [moved_rect rx ry]; lia). cbn [bind]. rewrite rect_eqb_refl.
  eexists. split; [reflexivity|].
  unfold MvG. cbn [r_width r_height r_pixel copy_color moved_rect rx ry rwidth rheight]. splits; auto.
  - intros a b. rewrite <- P. unfold in_raster. rewrite W, H, W', H'.
    match goal with |- (if ?s then _ else _) = (if ?t then _ else _) => replace t with s by lia end. reflexivity.
  - intros a b Hab. change (in_raster p a b = false) in Hab. rewrite Hab. cbn [andb]. auto.
  - intros a b Hab. change (in_raster q a b = false) in Hab. rewrite Hab. cbn [andb]. auto.
Qed.

Lemma graphic_gr bg g p q x y k : MvG bg p q ->
  SimR (MvG bg) (render_graphic Debug g p x y k) (render_graphic Debug g q (x + dx) (y + dy) k).
Proof.
  intros HR. pose proof wide. pose proof tall. unfold render_graphic.
  destruct ((0 <? x) && (0 <? y)) eqn:B0; [|intros ? [=]]. replace ((0 <? x + dx) && (0 <? y + dy)) with true by lia. cbn [bind]. cbv zeta.
  destruct (_ || _) eqn:B1; [apply sim_err|].
  pose proof HR as ([W H1] & [W' H1'] & _). rewrite W, H1 in B1. rewrite W', H1'.
  replace ((w' <? x + dx - 1 + g_width g) || (h' <? y + dy - 1 + g_height g)) with false by lia.
  assert (ROW : forall yy xs p q, MvG bg p q ->
    Sim (MvG bg) (draw_row g k (fun c => c) (x - 1) (y - 1) p yy xs) (draw_row g k (fun c => c) (x + dx - 1) (y + dy - 1) q yy xs)).
  { intros yy xs. induction xs as [|a xs IH]; intros p0 q0 H2; cbn [draw_row]; [now apply sim_val|].
    apply (sim_bind (MvG bg)); [|intros p1 q1 H3; now apply IH].
    unfold draw_pixel. eapply sim_bind; [apply (sim_same eq); auto|]. intros [c|] ? <-; [|now apply sim_val].
    replace (x + dx - 1 + a) with (x - 1 + a + dx) by lia. replace (y + dy - 1 + yy) with (y - 1 + yy + dy) by lia.
    intros r Er. destruct (set_gr bg p0 q0 _ _ c H2 _ Er) as (v & EV & HV & _). eauto. }
  apply (sim_bindr (MvG bg)); [|intros p1 q1 H2; now apply sim_ok].
  clear W H1 W' H1' B1. revert p q HR. induction (zrange (g_height g)) as [|b ys IH]; intros p q HR; cbn [draw_rows]; [now apply sim_val|].
  apply (sim_bind (MvG bg)); [apply ROW; exact HR|]. intros p1 q1 H2. now apply IH.
Qed.

Lemma graphics_gr bg vs ws : Forall2 (MovedValue dx dy) vs ws -> forall k p q, MvG bg p q ->
  SimR (MvG bg) (render_graphics_loop Debug d (bare (okl vs)) k p) (render_graphics_loop Debug d' (bare (okl ws)) k q).
Proof.
  induction 1 as [|v u vs ws H HV IH]; intros k p q HR; cbn [okl bare map render_graphics_loop]; [now apply sim_ok|].
  unfold okl, bare in IH. cbn [try].
  destruct H as [v NP|r H1 H2|r c H1 H2|n x y id|n|n X0 Y0].
  - destruct v; try (apply IH; assumption); try (intros ? [=]; fail); try (now apply sim_ok); try (exfalso; apply NP; exact I).
    + destruct (set_background k c _) as [a [o|e]]; cbn [try]; [auto|apply sim_err].
    + destruct (set_foreground k c _) as [a [o|e]]; cbn [try]; [auto|apply sim_err].
  - now apply sim_ok.
  - unfold set_foreground. destruct (ctx_rgb k c); cbn [try]; [|apply sim_err].
    eapply sim_try; [apply (rect_gr bg); assumption|]. intros p1 q1 HR1. now apply IH.
  - destruct (get_graphic d n id) as [g|e] eqn:EG; cbn [try]; [|apply sim_err]. rewrite (graphics' _ _ _ EG). cbn [try].
    eapply sim_try; [apply map_err_sim, graphic_gr; eauto|]. intros p1 q1 HR1. now apply IH.
  - destruct (get_graphic d n None) as [g|e] eqn:EG; cbn [try]; [|apply sim_err]. rewrite (graphics' _ _ _ EG). cbn [try].
    eapply sim_try; [apply map_err_sim, graphic_gr; eauto|]. intros p1 q1 HR1. now apply IH.
  - destruct (get_graphic d n None) as [g|e] eqn:EG; cbn [try]; [|apply sim_err]. rewrite (graphics' _ _ _ EG). cbn [try].
    eapply sim_try; [apply map_err_sim; replace (render_graphic Debug g q 1 1 k) with (render_graphic Debug g q (1 + dx) (1 + dy) k)
      by (rewrite X0, Y0; reflexivity); apply graphic_gr; eauto|]. intros p1 q1 HR1. now apply IH.
Qed.

(** ** Text *)

(** The state of the other run: the rectangle is moved, or still the whole sign. *)
Definition gr (m : bool) (r : RenderState) : RenderState := set_rect r (if m then moved_rect dx dy (rs_rect r) else full').
Definition gr_span (m : bool) (s : Span) : Span :=
  match s with SpText r t => SpText (gr m r) t | SpHex r t => SpHex (gr m r) t end.

Lemma gr_state m s : span_state (gr_span m s) = gr m (span_state s).
Proof. now destruct s. Qed.
Lemma gr_str m s : span_str (gr_span m s) = span_str s.
Proof. now destruct s. Qed.
Lemma gr_width m s fonts : span_width Debug (gr_span m s) fonts = span_width Debug s fonts.
Proof. now destruct s, m. Qed.
Lemma gr_between m s p fonts : char_spacing_between (gr_span m s) (gr_span m p) fonts = char_spacing_between s p fonts.
Proof. destruct s, p, m; reflexivity. Qed.

Lemma gr_filter m (f : RenderState -> RenderState -> bool) r l : (forall a b, f (gr m a) (gr m b) = f a b) ->
  filter (fun s => f (gr m r) (span_state s)) (map (gr_span m) l) = map (gr_span m) (filter (fun s => f r (span_state s)) l).
Proof.
  intros H. induction l as [|s l IH]; [reflexivity|]. cbn [map filter]. rewrite gr_state, H, IH. now destruct (f r (span_state s)).
Qed.

Lemma gr_horiz_loop m fonts rs l : forall prev b a,
  offset_horiz_loop Debug fonts (gr m rs) (map (gr_span m) l) (option_map (gr_span m) prev) b a = offset_horiz_loop Debug fonts rs l prev b a.
Proof.
  induction l as [|s l IH]; intros prev b a; cbn [map offset_horiz_loop]; [reflexivity|].
  rewrite gr_width, gr_state. change (rs_span (gr m (span_state s))) with (rs_span (span_state s)).
  change (rs_span (gr m rs)) with (rs_span rs).
  replace (match option_map (gr_span m) prev with Some ps => try (Val (char_spacing_between (gr_span m s) ps fonts)) _ | None => _ end)
    with (match prev with
          | Some ps => try (Val (char_spacing_between s ps fonts)) (fun w =>
             if rs_span (span_state s) <=? rs_span rs then
               let! b := chk16 Debug (b + w) in Val (Ok (b, a))
             else
               let! a := chk16 Debug (a + w) in Val (Ok (b, a)))
          | None => Val (Ok (b, a)) end)
    by (destruct prev; cbn [option_map]; [now rewrite gr_between|reflexivity]).
  apply try_cong. intros [b1 a1]. apply try_cong. intros w0.
  destruct (_ <? _); apply bind_cong; intros x _; apply (IH (Some s)).
Qed.

Lemma horiz_pos fonts rs l : forall prev b a b' a', offset_horiz_loop Debug fonts rs l prev b a = Val (Ok (b', a')) ->
  0 <= b -> 0 <= a -> 0 <= b' /\ 0 <= a'.
Proof.
  induction l as [|s l IH]; intros prev b a b' a' E B A; cbn [offset_horiz_loop] in E; [injection E as <- <-; auto|].
  apply try_ok in E as ([b1 a1] & E1 & E). assert (0 <= b1 /\ 0 <= a1).
  { destruct prev; [|injection E1 as <- <-; auto]. apply try_ok in E1 as (x & _ & E1).
    destruct (_ <=? _); apply bind_val in E1 as (z & C & E1); apply chk16_deb in C as [-> C]; injection E1 as <- <-; lia. }
  apply try_ok in E as (x & _ & E). destruct (_ <? _); apply bind_val in E as (z & C & E); apply chk16_deb in C as [-> C]; eapply IH; eauto; lia.
Qed.

Definition fits_in (m : bool) (r : Rectangle) : Prop := if m then on r else r = full.

Lemma horiz_gr m l s b a : offset_horiz Debug d l s = Val (Ok (b, a)) -> fits_in m (rs_rect (span_state s)) ->
  offset_horiz Debug d' (map (gr_span m) l) (gr_span m s) = Val (Ok (b, a)) /\ 0 <= b /\ 0 <= a /\ b + a <= rwidth (rs_rect (span_state s)).
Proof.
  unfold offset_horiz. cbv zeta. intros E HF. apply try_ok in E as ([b1 a1] & E1 & E). apply bind_val in E as (t & C & E).
  destruct (_ <=? _) eqn:L; [|discriminate E]. injection E as <- <-.
  rewrite gr_state, (gr_filter m matches_span) by reflexivity. rewrite fonts'.
  rewrite (gr_horiz_loop m (d_fonts d) (span_state s) _ None), E1. cbn [try]. rewrite C. cbn [bind].
  destruct (horiz_pos _ _ _ _ _ _ _ _ E1) as [P1 P2]; try lia. apply chk16_deb in C as [-> C].
  assert (rwidth (rs_rect (span_state s)) <= rwidth (rs_rect (gr m (span_state s)))).
  { destruct m; cbn; [lia|]. cbn in HF. rewrite HF. cbn. pose proof wide. lia. }
  replace (_ <=? _) with true by lia. splits; auto. lia.
Qed.

Lemma gr_collect m fonts l : forall acc, collect_lines fonts (map (gr_span m) l) acc = collect_lines fonts l acc.
Proof.
  induction l as [|s l IH]; intros acc; cbn [map collect_lines]; [reflexivity|].
  assert (span_height (gr_span m s) fonts = span_height s fonts) as -> by now destruct s, m.
  assert (span_font_spacing (gr_span m s) fonts = span_font_spacing s fonts) as -> by now destruct s, m.
  assert (span_line_spacing (gr_span m s) = span_line_spacing s) as -> by now destruct s, m.
  rewrite gr_state. change (rs_line (gr m (span_state s))) with (rs_line (span_state s)).
  destruct (span_height s fonts); auto. destruct (span_font_spacing s fonts); auto. cbv zeta. destruct (_ <=? _); apply IH.
Qed.

Lemma vert_pos full sln l : forall prev ln a b a' b', offset_vert_loop Debug full sln l prev ln a b = Val (a', b') ->
  0 <= a -> 0 <= b -> 0 <= a' /\ 0 <= b'.
Proof.
  induction l as [|s l IH]; intros prev ln a b a' b' E A B; cbn [offset_vert_loop] in E; [injection E as <- <-; auto|].
  apply bind_val in E as ([a1 b1] & E1 & E). assert (0 <= a1 /\ 0 <= b1).
  { destruct prev; [|injection E1 as <- <-; auto]. destruct full; [|injection E1 as <- <-; auto].
    destruct (_ <=? _); apply bind_val in E1 as (z & C & E1); apply chk16_deb in C as [-> C]; injection E1 as <- <-; lia. }
  destruct (_ <=? _); apply bind_val in E as (z & C & E); apply chk16_deb in C as [-> C]; eapply IH; eauto; lia.
Qed.

Lemma vert_gr m l s b a : offset_vert Debug d l s = Val (Ok (b, a)) -> fits_in m (rs_rect (span_state s)) ->
  offset_vert Debug d' (map (gr_span m) l) (gr_span m s) = Val (Ok (b, a)) /\ 0 <= b /\ 0 <= a /\ b + a <= rheight (rs_rect (span_state s)).
Proof.
  unfold offset_vert. cbv zeta. intros E HF. apply try_ok in E as (ls & E0 & E). apply bind_val in E as ([b1 a1] & E1 & E).
  apply bind_val in E as (t & C & E). destruct (_ <=? _) eqn:L; [|discriminate E]. injection E as <- <-.
  rewrite gr_state, (gr_filter m matches_line) by reflexivity. rewrite fonts', gr_collect. injection E0 as ->. cbn [try].
  destruct cell' as [-> _]. change (rs_line (gr m (span_state s))) with (rs_line (span_state s)). rewrite E1. cbn [bind]. rewrite C. cbn [bind].
  destruct (vert_pos _ _ _ _ _ _ _ _ _ E1) as [P1 P2]; try lia. apply chk16_deb in C as [-> C].
  assert (rheight (rs_rect (span_state s)) <= rheight (rs_rect (gr m (span_state s)))).
  { destruct m; cbn; [lia|]. cbn in HF. rewrite HF. cbn. pose proof tall. lia. }
  replace (_ <=? _) with true by lia. splits; auto. lia.
Qed.

(** Places of text, when everything fits. *)
Definition xpos (jl : JustificationLine) (x0 rw b a cw : Z) : Z :=
  match jl with
  | JlLeft => x0 - 1 + b
  | JlCenter => (x0 - 1 + (rw - b - a) / 2 + b) / cw * cw
  | _ => x0 - 1 + rw - a
  end.
Definition ypos (jp : JustificationPage) (y0 rh b a ch : Z) : Z :=
  match jp with
  | JpTop => y0 - 1 + b
  | JpMiddle => (y0 - 1 + (rh - b - a) / 2 + b) / ch * ch
  | _ => y0 - 1 + rh - a
  end.
Definition lcr (jl : JustificationLine) : Prop := match jl with JlLeft | JlCenter | JlRight => True | _ => False end.
Definition tmb (jp : JustificationPage) : Prop := match jp with JpTop | JpMiddle | JpBottom => True | _ => False end.

Lemma down a c : 0 <= a -> 0 < c -> 0 <= a / c * c <= a.
Proof. intros A C. pose proof (Z.mul_div_le a c C). pose proof (Z.div_pos a c A C). lia. Qed.

Lemma x_val e l s b a : offset_horiz Debug e l s = Val (Ok (b, a)) -> let r := rs_rect (span_state s) in
  0 <= b -> 0 <= a -> b + a <= rwidth r -> 1 <= rx r -> rx r + rwidth r < 65536 -> lcr (rs_jl (span_state s)) ->
  span_x Debug e l s = Val (Ok (xpos (rs_jl (span_state s)) (rx r) (rwidth r) b a (r_char_width e))).
Proof.
  cbv zeta. intros E B A BA X W J. unfold span_x. assert (CW : 0 < r_char_width e) by (unfold r_char_width; lia).
  destruct (rs_jl (span_state s)); try contradiction J; cbn [xpos]; unfold span_x_left, span_x_center, span_x_right; rewrite E;
    (rewrite chk16_val by lia); cbn [bind try fst snd].
  - rewrite chk16_val by lia. reflexivity.
  - set (rw := rwidth _) in *. set (x0 := rx _) in *.
    pose proof (Z.mul_div_le (rw - b - a) 2 ltac:(lia)). pose proof (Z.div_pos (rw - b - a) 2 ltac:(lia) ltac:(lia)).
    rewrite (chk16_val (rw - b)) by lia. cbn [bind]. rewrite (chk16_val (rw - b - a)) by lia. cbn [bind]. cbv zeta.
    rewrite (chk16_val (x0 - 1 + _)) by lia. cbn [bind]. rewrite (chk16_val (x0 - 1 + _ + b)) by lia. cbn [bind].
    pose proof (down (x0 - 1 + (rw - b - a) / 2 + b) (r_char_width e) ltac:(lia) CW).
    rewrite chk16_val by lia. reflexivity.
  - rewrite (chk16_val (rx _ - 1 + _)) by lia. cbn [bind]. rewrite chk16_val by lia. reflexivity.
Qed.

Lemma x_inv e l s x : span_x Debug e l s = Val (Ok x) -> lcr (rs_jl (span_state s)) /\ exists b a, offset_horiz Debug e l s = Val (Ok (b, a)).
Proof.
  unfold span_x. destruct (rs_jl (span_state s)); try (intros [=]; fail); unfold span_x_left, span_x_center, span_x_right; intros E;
    (split; [exact I|]); apply bind_val in E as (? & _ & E); apply try_ok in E as ([b a] & E & _); eauto.
Qed.

Lemma y_val e l s b a : offset_vert Debug e l s = Val (Ok (b, a)) -> let r := rs_rect (span_state s) in
  0 <= b -> 0 <= a -> b + a <= rheight r -> 1 <= ry r -> ry r + rheight r < 65536 -> tmb (rs_jp (span_state s)) ->
  let y := ypos (rs_jp (span_state s)) (ry r) (rheight r) b a (r_char_height e) in
  baseline Debug e l s = Val (Ok y) /\ 0 <= y < 65536.
Proof.
  cbv zeta. intros E B A BA X W J. unfold baseline. assert (CW : 0 < r_char_height e) by (unfold r_char_height; lia).
  destruct (rs_jp (span_state s)); try contradiction J; cbn [ypos]; unfold baseline_top, baseline_middle, baseline_bottom; rewrite E;
    (rewrite chk16_val by lia); cbn [bind try fst snd].
  - rewrite chk16_val by lia. split; [reflexivity|lia].
  - set (rw := rheight _) in *. set (x0 := ry _) in *.
    pose proof (Z.mul_div_le (rw - b - a) 2 ltac:(lia)). pose proof (Z.div_pos (rw - b - a) 2 ltac:(lia) ltac:(lia)).
    rewrite (chk16_val (rw - b)) by lia. cbn [bind]. rewrite (chk16_val (rw - b - a)) by lia. cbn [bind]. cbv zeta.
    rewrite (chk16_val (x0 - 1 + _)) by lia. cbn [bind]. rewrite (chk16_val (x0 - 1 + _ + b)) by lia. cbn [bind].
    pose proof (down (x0 - 1 + (rw - b - a) / 2 + b) (r_char_height e) ltac:(lia) CW).
    rewrite chk16_val by lia. split; [reflexivity|lia].
  - rewrite (chk16_val (ry _ - 1 + _)) by lia. cbn [bind]. rewrite chk16_val by lia. split; [reflexivity|lia].
Qed.

Lemma y_inv e l s y : baseline Debug e l s = Val (Ok y) -> tmb (rs_jp (span_state s)) /\ exists b a, offset_vert Debug e l s = Val (Ok (b, a)).
Proof.
  unfold baseline. destruct (rs_jp (span_state s)); try (intros [=]; fail); unfold baseline_top, baseline_middle, baseline_bottom; intros E;
    (split; [exact I|]); apply bind_val in E as (? & _ & E); apply try_ok in E as ([b a] & E & _); eauto.
Qed.

Lemma fits_in_ok m r : fits_in m r -> let r' := if m then moved_rect dx dy r else full' in
  (1 <= rx r /\ rx r + rwidth r < 65536 /\ 1 <= ry r /\ ry r + rheight r < 65536)
  /\ (1 <= rx r' /\ rx r' + rwidth r' < 65536 /\ 1 <= ry r' /\ ry r' + rheight r' < 65536)
  /\ rwidth r <= rwidth r' /\ rheight r <= rheight r'.
Proof.
  pose proof wide. pose proof tall. destruct m; cbn [fits_in]; [unfold on; cbn [moved_rect rx ry rwidth rheight]; lia|].
  intros ->. cbn [rx ry rwidth rheight]. lia.
Qed.

Lemma x_gr m l s : fits_in m (rs_rect (span_state s)) ->
  SimR (fun x y => 0 <= x < 65536 /\ (m = true -> y = x + dx)) (span_x Debug d l s) (span_x Debug d' (map (gr_span m) l) (gr_span m s)).
Proof.
  intros HF x E. destruct (x_inv _ _ _ _ E) as (J & b & a & EO). destruct (horiz_gr m _ _ _ _ EO HF) as (EO' & B & A & BA).
  destruct (fits_in_ok _ _ HF) as (F1 & F2 & F3). rewrite (x_val _ _ _ _ _ EO) in E by (auto; lia). injection E as <-.
  rewrite (x_val _ _ _ _ _ EO'); rewrite ?gr_state; cbn [gr rs_rect rs_jl set_rect]; auto; try lia.
  eexists. split; [reflexivity|]. assert (CW : 0 < r_char_width d) by (unfold r_char_width; lia). rewrite cw'.
  set (r := rs_rect _) in *. pose proof (Z.mul_div_le (rwidth r - b - a) 2 ltac:(lia)). pose proof (Z.div_pos (rwidth r - b - a) 2 ltac:(lia) ltac:(lia)).
  split.
  - pose proof (down (rx r - 1 + (rwidth r - b - a) / 2 + b) (r_char_width d) ltac:(lia) CW).
    destruct (rs_jl _); cbn [xpos]; lia.
  - intros ->. cbn [moved_rect rx rwidth]. destruct (rs_jl _); cbn [xpos]; try lia.
    rewrite <- div_step by (auto; apply cells). f_equal. f_equal. lia.
Qed.

Lemma height_pos s hh : span_height s (d_fonts d) = Ok hh -> 0 <= hh.
Proof.
  unfold span_height, rs_get_font. destruct (font_lookup (d_fonts d) (rs_font (span_state s))) as [f|] eqn:E; [|discriminate].
  assert (0 <= f_height f).
  { unfold font_lookup in E. apply find_some in E as [E _]. unfold table_fields in HFonts. rewrite Forall_forall in HFonts.
    destruct (HFonts f E) as (_ & F & _). unfold u8 in F. lia. }
  destruct (rs_font_vid _); [destruct (_ =? _)|]; intros [= <-]; auto.
Qed.

Lemma y_gr m l s : fits_in m (rs_rect (span_state s)) ->
  SimR (fun x y => m = true -> y = x + dy) (span_y Debug d l s) (span_y Debug d' (map (gr_span m) l) (gr_span m s)).
Proof.
  intros HF y E. unfold span_y in *. apply try_ok in E as (y0 & E & E'). apply try_ok in E' as (hh & EH & E').
  apply bind_val in E' as (y1 & C & E'). apply chk16_deb in C as [-> C]. injection E' as <-.
  destruct (y_inv _ _ _ _ E) as (J & b & a & EO). destruct (vert_gr m _ _ _ _ EO HF) as (EO' & B & A & BA).
  destruct (fits_in_ok _ _ HF) as (F1 & F2 & F3). destruct (y_val _ _ _ _ _ EO) as [V VB]; auto; try lia. rewrite V in E. injection E as <-.
  destruct (y_val _ _ _ _ _ EO') as [V' VB']; rewrite ?gr_state; cbn [gr rs_rect rs_jp set_rect]; auto; try lia.
  rewrite V'. cbn [try]. rewrite fonts'.
  assert (span_height (gr_span m s) (d_fonts d) = span_height s (d_fonts d)) as -> by now destruct s, m.
  injection EH as EH. pose proof (height_pos _ _ EH). rewrite EH. cbn [try]. rewrite gr_state in *. cbn [gr rs_rect rs_jp set_rect] in *.
  assert (CH : 0 < r_char_height d) by (unfold r_char_height; lia). rewrite ch' in *. set (r := rs_rect _) in *.
  pose proof tall.
  assert (MO : m = true -> ypos (rs_jp (span_state s)) (ry r + dy) (rheight r) b a (r_char_height d)
     = ypos (rs_jp (span_state s)) (ry r) (rheight r) b a (r_char_height d) + dy).
  { intros Em. destruct (rs_jp _); cbn [ypos]; try lia. rewrite <- div_step by (auto; apply cells). f_equal. f_equal. lia. }
  destruct m.
  - cbn [moved_rect ry rheight] in *. rewrite (MO eq_refl) in *. rewrite chk16_val by lia. cbn [bind]. eexists. split; [reflexivity|]. intros _. lia.
  - cbn [fits_in] in HF. cbn [ry rheight] in *.
    assert (LE : ypos (rs_jp (span_state s)) (ry r) (rheight r) b a (r_char_height d) <= ypos (rs_jp (span_state s)) 1 h' b a (r_char_height d)).
    { rewrite HF in *. cbn [ry rheight] in *. destruct (rs_jp _); cbn [ypos]; try lia.
      apply Z.mul_le_mono_nonneg_r; [lia|]. apply Z.div_le_mono; [lia|].
      pose proof (Z.div_le_mono (h - b - a) (h' - b - a) 2 ltac:(lia) ltac:(lia)). lia. }
    rewrite chk16_val by lia. cbn [bind]. eexists. split; [reflexivity|discriminate].
Qed.

Lemma eqb_refls r : matches_span r r = true.
Proof. unfold matches_span, jp_eqb, jl_eqb. destruct (rs_jp r), (rs_jl r); cbn; lia. Qed.

Lemma horiz_width fonts rs l s : In s l -> forall prev b a r, offset_horiz_loop Debug fonts rs l prev b a = Val (Ok r) ->
  exists tw, span_width Debug s fonts = Val (Ok tw).
Proof.
  induction l as [|t l IH]; intros H prev b a r E; [contradiction|]. cbn [offset_horiz_loop] in E.
  apply try_ok in E as ([b1 a1] & _ & E). apply try_ok in E as (tw & E1 & E). destruct H as [->|H]; [eauto|].
  destruct (_ <? _); apply bind_val in E as (? & _ & E); eauto.
Qed.

Lemma x_width l s x : In s l -> span_x Debug d l s = Val (Ok x) -> exists tw, span_width Debug s (d_fonts d) = Val (Ok tw).
Proof.
  intros HI E. destruct (x_inv _ _ _ _ E) as (_ & b & a & EO). unfold offset_horiz in EO. cbv zeta in EO. apply try_ok in EO as (r & EO & _).
  eapply horiz_width; [|exact EO]. apply filter_In. split; auto. apply eqb_refls.
Qed.

Definition span_in (m : bool) (s : Span) : Prop := fits_in m (rs_rect (span_state s)) /\ (m = false -> span_str s = []).

Lemma spans_gr bg m all todo : incl todo all -> Forall (span_in m) todo -> forall p q, MvG bg p q ->
  SimR (MvG bg) (render_spans_loop Debug d all todo p) (render_spans_loop Debug d' (map (gr_span m) all) (map (gr_span m) todo) q).
Proof.
  induction todo as [|s l IH]; intros HI HE p q HR; cbn [map render_spans_loop]; [now apply sim_ok|].
  inversion HE as [|? ? [HF HT] HE']; subst.
  intros res E. apply try_ok in E as (x & EX & E). apply try_ok in E as (y & EY & E). apply try_ok in E as (f & EF & E). apply try_ok in E as (r1 & ER & E).
  destruct (x_gr m all s HF _ EX) as (x' & -> & BX & HX). cbn [try]. destruct (y_gr m all s HF _ EY) as (y' & -> & HY). cbn [try].
  assert (G : rs_get_font (span_state (gr_span m s)) (d_fonts d') = rs_get_font (span_state s) (d_fonts d)) by (rewrite gr_state, fonts'; reflexivity).
  injection EF as EF. rewrite G, EF. cbn [try].
  assert (C : char_spacing_font (gr_span m s) f = char_spacing_font s f) by (unfold char_spacing_font; rewrite gr_state; reflexivity).
  assert (F : foreground_rgb (rs_ctx (span_state (gr_span m s))) = foreground_rgb (rs_ctx (span_state s))) by (rewrite gr_state; reflexivity).
  assert (T : SimR (MvG bg) (span_render_text Debug s p f x y) (span_render_text Debug (gr_span m s) q f x' y')).
  { unfold span_render_text, font_render_text. rewrite C, F, gr_str. apply map_err_sim. destruct m.
    - rewrite (HX eq_refl), (HY eq_refl). destruct (x_width _ _ _ (HI s (or_introl eq_refl)) EX) as (tw & W).
      unfold span_width in W. rewrite EF in W. cbn [try] in W.
      destruct (char_spacing_fonts s (d_fonts d)) as [cs|] eqn:EC; [|discriminate W]. apply map_err_ok in W.
      unfold text_width in W. assert (cs = char_spacing_font s f) as ->.
      { unfold char_spacing_fonts in EC. unfold char_spacing_font. rewrite EF in EC. destruct (rs_char_spacing _); injection EC as <-; reflexivity. }
      eapply text_gr; eauto. lia.
    - rewrite (HT eq_refl). now apply sim_ok. }
  destruct (T _ ER) as (r2 & -> & H2). cbn [try]. apply (IH (fun a H => HI a (or_intror H)) HE' _ _ H2 _ E).
Qed.

Lemma just_gr m l : check_justification (map (gr_span m) l) = check_justification l.
Proof.
  unfold check_justification. generalize JpOther, JlOther, 0. induction l as [|s l IH]; intros jp jl n; [reflexivity|].
  cbn [map check_just_loop]. rewrite gr_state. cbn [gr rs_jp rs_jl rs_line set_rect].
  cbv zeta. destruct (_ || _); auto.
Qed.

Lemma text_spans_gr bg m l : Forall (span_in m) l -> forall p q, MvG bg p q ->
  SimR (MvG bg) (render_text_spans Debug d l p) (render_text_spans Debug d' (map (gr_span m) l) q).
Proof.
  intros HE p q HR. unfold render_text_spans. rewrite just_gr.
  eapply sim_try; [apply (sim_same_ok eq); auto|]. intros _ _ _. apply spans_gr; auto. intros a H. exact H.
Qed.

(** ** The loop over a text rectangle *)

Lemma same_new : rs_new d' = set_rect (rs_new d) full'.
Proof. unfold rs_new, dms_color_ctx, foreground_default_rgb, background_default_rgb, set_rect.
  destruct HS as (_ & _ & _ & [E1 E2] & _). rewrite multi', <- E1, <- E2. reflexivity.
Qed.

Definition EG (m : bool) (e f : AEnd) : Prop :=
  a_state e = a_state f /\ a_spans f = map (gr_span m) (a_spans e) /\ Forall (span_in m) (a_spans e)
  /\ exists vs ws k, a_rest e = okl vs /\ a_rest f = okl ws /\ Forall2 (MovedValue dx dy) vs ws
       /\ a_rs f = gr k (a_rs e) /\ fits_in k (rs_rect (a_rs e)) /\ framed (flag (a_state e) k) vs.

Lemma tr_gr r : 0 < rwidth r -> 0 < rheight r -> forall s,
  update_text_rectangle Debug d (rs_new d) r = Val (Some s) ->
  s = r /\ on r /\ update_text_rectangle Debug d' (rs_new d') (moved_rect dx dy r) = Val (Some (moved_rect dx dy r)).
Proof.
  intros W H s E. pose proof wide. pose proof tall.
  assert (CW : 0 < r_char_width d) by (unfold r_char_width; lia). assert (CH : 0 < r_char_height d) by (unfold r_char_height; lia).
  unfold update_text_rectangle in *. cbv zeta in *. rewrite extend_same in * by auto.
  apply bind_val in E as (i & E1 & E). destruct (rect_eqb i r) eqn:B; [|discriminate E]. cbn [negb] in E. apply rect_eqb_eq in B. subst i.
  apply on_of in E1; auto. pose proof E1 as HO. unfold on in HO.
  rewrite chk16_val in E by lia. cbn [bind] in E.
  match type of E with (if ?c then _ else _) = _ => destruct c eqn:B1; [discriminate E|] end. rewrite chk16_val in E by lia. cbn [bind] in E.
  match type of E with (if ?c then _ else _) = _ => destruct c eqn:B2; [discriminate E|] end. injection E as <-. splits; auto.
  rewrite same_new. cbn [rs_rect set_rect]. rewrite on_moved by auto. cbn [bind]. rewrite rect_eqb_refl. cbn [negb].
  rewrite cw', ch'. cbn [moved_rect rx ry rwidth rheight].
  rewrite (chk16_val (rx r + dx - 1)) by lia. cbn [bind].
  rewrite !orb_false_iff, !negb_false_iff, !Z.eqb_eq in *. destruct cells as [C1 C2].
  replace ((rx r + dx - 1) mod r_char_width d) with 0.
  2:{ replace (rx r + dx - 1) with ((rx r - 1) + dx) by lia. rewrite Zplus_mod, C1. destruct B1 as [-> _]. now rewrite Z.mod_0_l by lia. }
  destruct B1 as [_ ->]. cbn [Z.eqb negb orb].
  rewrite (chk16_val (ry r + dy - 1)) by lia. cbn [bind].
  replace ((ry r + dy - 1) mod r_char_height d) with 0.
  2:{ replace (ry r + dy - 1) with ((ry r - 1) + dy) by lia. rewrite Zplus_mod, C2. destruct B2 as [-> _]. now rewrite Z.mod_0_l by lia. }
  destruct B2 as [_ ->]. reflexivity.
Qed.

Lemma rtr_gr m po vs ws : Forall2 (MovedValue dx dy) vs ws -> framed m vs -> forall r l lb,
  fits_in m (rs_rect r) -> Forall (span_in m) l -> forall e,
  a_rtr Debug d (rs_new d) po (okl vs) r l lb = Val e -> a_res e = Ok tt ->
  exists f, a_rtr Debug d' (rs_new d') po (okl ws) (gr m r) (map (gr_span m) l) lb = Val f /\ a_res f = Ok tt /\ EG m e f.
Proof.
  induction 1 as [|v u vs ws H HV IH]; intros HF r l lb HR HE e E Er; cbn [okl map a_rtr bind] in *.
  - injection E as <-. eexists. split; [reflexivity|]. split; [reflexivity|]. unfold EG. cbn. splits; auto. exists [], [], m. splits; auto.
  - fold (okl vs) in *. fold (okl ws) in *.
    assert (GO : forall r1 r2 lb1, a_rtr Debug d (rs_new d) po (okl vs) r1 l lb1 = Val e -> r2 = gr m r1 -> framed m vs -> fits_in m (rs_rect r1) ->
      exists f, a_rtr Debug d' (rs_new d') po (okl ws) r2 (map (gr_span m) l) lb1 = Val f /\ a_res f = Ok tt /\ EG m e f)
      by (intros r1 ? lb1 E1 ->; intros; eapply IH; eauto).
    assert (BAD : forall r1 st l1 e1, Val (mkA r1 st (okl vs) l1 (Err e1)) = Val e -> False).
    { intros r1 st l1 e1 [= <-]. discriminate Er. }
    destruct cell' as [CH CW].
    assert (NF : rs_font (rs_new d') = rs_font (rs_new d)) by now rewrite same_new.
    assert (NL : rs_jl (rs_new d') = rs_jl (rs_new d)) by now rewrite same_new.
    assert (NJ : rs_jp (rs_new d') = rs_jp (rs_new d)) by now rewrite same_new.
    destruct H as [v NP|q H1 H2|q c H1 H2|n x y id|n|n X0 Y0]; cbn [framed] in HF; try (eapply GO; eauto; fail).
    + destruct v; cbn [framed] in HF; try (eapply GO; eauto; fail); try (exfalso; apply NP; exact I); try (exfalso; eapply BAD; exact E).
      * change (rs_ctx (gr m r)) with (rs_ctx r).
        destruct (set_foreground (rs_ctx r) c _) as [k [o|e1]]; [|exfalso; eapply BAD; exact E]. eapply GO; eauto.
      * rewrite NF. eapply GO; eauto.
      * destruct HF as [-> HF]. destruct (is_charb _); [|exfalso; eapply BAD; exact E]. change (rs_span (gr true r)) with (rs_span r).
        apply bind_val in E as (a & C & E). rewrite C. cbn [bind].
        change ([SpHex (gr true r) (fstr4 c)]) with (map (gr_span true) [SpHex r (fstr4 c)]). rewrite <- map_app.
        apply (IH HF (set_span r a) _ false HR) with (e := e); auto. apply Forall_app. split; auto. constructor; [|constructor]. split; [exact HR|discriminate].
      * rewrite NL. destruct j as [[]|]; try (exfalso; eapply BAD; exact E); (eapply GO; eauto).
      * rewrite NJ. destruct j as [[]|]; try (exfalso; eapply BAD; exact E); change (rs_jp (gr m r)) with (rs_jp r);
          (destruct (negb _); eapply GO; eauto).
      * rewrite CH. match goal with |- context [if ?c then Val _ else _] => destruct c end; [exfalso; eapply BAD; exact E|].
        change (rs_line (set_line_spacing (gr m r) x)) with (rs_line (set_line_spacing r x)).
        apply bind_val in E as (a & C & E). rewrite C. cbn [bind].
        replace (if lb then map (gr_span m) l ++ [SpText (gr m r) []] else map (gr_span m) l) with (map (gr_span m) (if lb then l ++ [SpText r []] else l))
          by (destruct lb; [now rewrite map_app|reflexivity]).
        change (set_span (set_line (set_line_spacing (gr m r) x) a) 0) with (gr m (set_span (set_line (set_line_spacing r x) a) 0)).
        eapply IH; eauto. destruct lb; auto. apply Forall_app. split; auto. constructor; [|constructor]. split; [exact HR|reflexivity].
      * injection E as <-. eexists. split; [reflexivity|]. split; [reflexivity|]. unfold EG. cbn. splits; auto. exists vs, ws, m. splits; auto.
        unfold flag. destruct po; cbn; exact HF.
      * rewrite CW. destruct (_ && _); [exfalso; eapply BAD; exact E|]. eapply GO; eauto.
      * destruct HF as [-> HF]. change (rs_span (gr true r)) with (rs_span r).
        apply bind_val in E as (a & C & E). rewrite C. cbn [bind].
        change ([SpText (gr true r) t]) with (map (gr_span true) [SpText r t]). rewrite <- map_app.
        apply (IH HF (set_span r a) _ false HR) with (e := e); auto. apply Forall_app. split; auto. constructor; [|constructor]. split; [exact HR|discriminate].
    + apply bind_val in E as ([s|] & EU & E); [|exfalso; eapply BAD; exact E].
      destruct (tr_gr q H1 H2 s EU) as (-> & HO & ->). cbn [bind]. injection E as <-.
      eexists. split; [reflexivity|]. split; [reflexivity|]. unfold EG. cbn. splits; auto. exists vs, ws, true. splits; auto.
Qed.

(** ** Pages *)

Definition RestG (f : bool) (p q : AP) (k : bool) : Prop :=
  ap_state p = ap_state q /\ ap_rs q = gr k (ap_rs p) /\ fits_in k (rs_rect (ap_rs p))
  /\ exists vs ws, ap_rest p = okl vs /\ ap_rest q = okl ws /\ Forall2 (MovedValue dx dy) vs ws /\ framed f vs.

Definition SimP {A B} (S : AP -> AP -> Prop) (Q : A -> B -> Prop) (a : M (AP * result A SyntaxError)) (b : M (AP * result B SyntaxError)) : Prop :=
  forall p x, a = Val (p, Ok x) -> exists q y, b = Val (q, Ok y) /\ S p q /\ Q x y.

Lemma text_rect_gr bg p q k a b : RestG k p q k -> MvG bg a b ->
  SimP (fun p q => exists k, RestG (flag (ap_state p) k) p q k) (MvG bg) (a_text_rect Debug d p a) (a_text_rect Debug d' q b).
Proof.
  intros (ES & ER & HF & vs & ws & EV & EW & HV & HFr) HR p1 r1 E. unfold a_text_rect in *. rewrite ER, EW. rewrite EV in E. cbv zeta in *.
  change (rs_off_time (gr k (ap_rs p))) with (rs_off_time (ap_rs p)).
  apply bind_val in E as (e & EE & E). destruct (a_res e) as [[]|] eqn:Re; [|discriminate E].
  destruct (rtr_gr k _ vs ws HV HFr (ap_rs p) [] true HF (Forall_nil _) e EE Re) as (f & EF & Rf & E1 & E2 & E3 & vs' & ws' & k' & E4 & E5 & E6 & E7 & E8 & E9).
  cbn [map] in EF. rewrite EF. cbn [bind]. rewrite Rf, E2. apply bind_val in E as (r & ET & E). injection E as <- ->.
  destruct (text_spans_gr bg k _ E3 _ _ HR _ ET) as (r2 & -> & HX). cbn [bind].
  eexists _, r2. split; [reflexivity|]. split; [|exact HX]. exists k'. unfold RestG. cbn. splits; auto. exists vs', ws'. splits; auto.
Qed.

Lemma page_loop_gr bg fuel : forall n p q k a b, RestG (flag (ap_state p) k) p q k -> MvG bg a b ->
  SimP (fun p q => exists k, RestG false p q k) (MvG bg) (a_page_loop Debug d fuel n p a) (a_page_loop Debug d' fuel n q b).
Proof.
  induction fuel as [|f IH]; intros n p q k a b HP HR; cbn [a_page_loop]; [intros ? ? [=]|].
  pose proof HP as (ES & ER & HF & vs & ws & EV & EW & HV & HFr). rewrite <- ES.
  assert (END : ap_state p <> PsOn false -> SimP (fun p q => exists k, RestG false p q k) (MvG bg) (Val (p, Ok a)) (Val (q, Ok b))).
  { intros N p1 x [= <- <-]. exists q, b. splits; auto. exists k. unfold RestG. splits; auto. exists vs, ws. splits; auto.
    destruct (ap_state p) as [[]|[]|]; try exact HFr. now destruct N. }
  destruct (ap_state p) as [[]|[]|] eqn:Es; try (apply END; discriminate). clear END.
  intros pe re E. apply bind_val in E as (g & EG1 & E). destruct g as [r|e]; [|discriminate E].
  rewrite EV in EG1. rewrite EW. change (rs_ctx (ap_rs q)) with (rs_ctx (ap_rs q)). replace (rs_ctx (ap_rs q)) with (rs_ctx (ap_rs p)) by (rewrite ER; reflexivity).
  destruct (graphics_gr bg vs ws HV _ _ _ HR _ EG1) as (r' & -> & HX). cbn [bind].
  assert (HK : RestG k p q k) by (unfold RestG; splits; auto; [congruence|]; exists vs, ws; auto).
  apply bind_val in E as ([p1 r1] & ET & E). destruct r1 as [r1|e]; [|discriminate E].
  destruct (text_rect_gr bg p q k _ _ HK HX _ _ ET) as (q1 & r2 & -> & [k1 H1] & H2). cbn [bind]. cbv zeta in *.
  destruct (_ <? _); [discriminate E|]. exact (IH _ _ _ k1 _ _ H1 H2 _ _ E).
Qed.

Lemma build_gr r : rs_rect r = full -> MvG (background_rgb (rs_ctx r)) (build_raster r) (build_raster (gr false r)).
Proof. intros H. unfold MvG, build_raster. rewrite H. cbn. splits; auto. Qed.

Lemma update_gr vs ws : Forall2 (MovedValue dx dy) vs ws -> forall r r1,
  update_page_loop (rs_new d) (bare (okl vs)) r = Val (r1, Ok tt) -> rs_rect r = full ->
  update_page_loop (rs_new d') (bare (okl ws)) (gr false r) = Val (gr false r1, Ok tt) /\ rs_rect r1 = full.
Proof.
  induction 1 as [|v u vs ws H HV IH]; intros r r1 E HR; cbn [okl bare map update_page_loop bind] in *; [injection E as <-; auto|]. unfold okl, bare in IH.
  destruct H as [v NP|q H1 H2|q c H1 H2|n x y id|n|n X0 Y0]; try (now apply IH).
  destruct v; try (now apply IH); try (injection E as <-; now auto); try (exfalso; apply NP; exact I).
  - change (rs_ctx (gr false r)) with (rs_ctx r). destruct (set_background _ _ _) as [k [o|e]]; [|discriminate E]. apply (IH (set_ctx r k)); auto.
  - change (rs_ctx (gr false r)) with (rs_ctx r). destruct (set_background _ _ _) as [k [o|e]]; [|discriminate E]. apply (IH (set_ctx r k)); auto.
  - assert (rs_on_time (rs_new d') = rs_on_time (rs_new d)) as -> by now rewrite same_new.
    assert (rs_off_time (rs_new d') = rs_off_time (rs_new d)) as -> by now rewrite same_new.
    apply (IH _ _ E); auto.
Qed.

Lemma shown_gr bg p q : MvG bg p q -> forall x y, shown bg p x y = shown bg q (x + dx) (y + dy).
Proof.
  intros (_ & _ & P & O & O') x y. unfold shown.
  destruct (in_raster p x y) eqn:E, (in_raster q (x + dx) (y + dy)) eqn:E'; auto.
  - rewrite P. now apply O'.
  - rewrite <- P. symmetry. now apply O.
Qed.

Lemma check_gr vs ws : Forall2 (MovedValue dx dy) vs ws ->
  check_unsupported d (bare (okl vs)) = Val (Ok tt) -> check_unsupported d' (bare (okl ws)) = Val (Ok tt).
Proof.
  induction 1 as [|v u vs ws H HV IH]; intros E; cbn [okl bare map check_unsupported try] in *; [reflexivity|]. unfold okl, bare in IH.
  rewrite multi'. assert (T : value_tag u = value_tag v) by (destruct H; reflexivity). rewrite T.
  destruct (value_tag v); [|auto]. destruct (negb _); [discriminate E|]. destruct (_ =? _); auto.
Qed.

Lemma on_page_gr p q k : RestG false p q k ->
  SimP (fun p q => exists k, RestG false p q k) (SetPage dx dy d d') (a_on_page Debug d p) (a_on_page Debug d' q).
Proof.
  intros (ES & ER & HF & vs & ws & EV & EW & HV & HFr) pe pg E. unfold a_on_page in *. cbv zeta in *. rewrite EV in E. rewrite EW.
  apply bind_val in E as ([[]|e] & EC & E); [|discriminate E]. rewrite (check_gr vs ws HV EC). cbn [bind].
  apply bind_val in E as ([rs [[]|e]] & EU & E); [|discriminate E]. unfold update_page_state in *. cbv zeta in *.
  destruct (update_gr vs ws HV _ _ EU eq_refl) as [EU' RF].
  assert (EQ : forall t, set_span (set_line (set_line_spacing (set_rect (ap_rs q) (rs_rect (rs_new d'))) t) 0) 0
    = gr false (set_span (set_line (set_line_spacing (set_rect (ap_rs p) (rs_rect (rs_new d))) t) 0) 0)) by (intros t; rewrite ER; reflexivity).
  rewrite EQ. replace (rs_line_spacing (rs_new d')) with (rs_line_spacing (rs_new d)) by reflexivity. rewrite EU'. cbn [bind].
  apply bind_val in E as ([p1 r1] & EL & E). destruct r1 as [r1|e]; [|discriminate E]. injection E as <- <-.
  destruct (page_loop_gr (background_rgb (rs_ctx rs)) 52 0 (mkAP rs (PsOn false) (okl vs)) (mkAP (gr false rs) (PsOn false) (okl ws)) false
     (build_raster rs) (build_raster (gr false rs))) with (p := p1) (x := r1) as (q1 & r2 & -> & [k1 H1] & H2); auto.
  - unfold RestG. cbn. splits; auto. exists vs, ws. splits; auto.
  - now apply build_gr.
  - cbn [bind]. eexists q1, _. split; [reflexivity|]. split; [eauto|]. unfold SetPage. cbn [pg_duration pg_raster].
    destruct H1 as (_ & -> & _). splits; auto.
    + left. unfold size_is. cbn [pg_raster]. destruct H2 as (S & S' & _). auto.
    + exists (background_rgb (rs_ctx rs)). now apply shown_gr.
Qed.

Lemma take_gr n : forall p q k, RestG false p q k -> forall ps, a_take Debug d n p = Val (map Ok ps) ->
  exists qs, a_take Debug d' n q = Val (map Ok qs) /\ Forall2 (SetPage dx dy d d') ps qs.
Proof.
  induction n as [|n IH]; intros p q k HP ps H; cbn [a_take] in *.
  - destruct ps; [|discriminate]. exists []. auto.
  - apply bind_val in H as ([o p1] & N & H). pose proof HP as (ES & ER & HF & vs & ws & EV & EW & HV & HFr).
    assert (HN : match o with
      | Some (Ok a) => exists b q1 k1, a_next Debug d' q = Val (Some (Ok b), q1) /\ SetPage dx dy d d' a b /\ RestG false p1 q1 k1
      | None => exists q1, a_next Debug d' q = Val (None, q1)
      | _ => True end).
    { unfold a_next in *. rewrite <- ES. destruct (ap_state p) as [m|m|] eqn:Es.
      - apply bind_val in N as ([p2 [a|e]] & N1 & N); cbn [fst snd] in N; injection N as <- <-; [|exact I].
        destruct (on_page_gr p q k HP _ _ N1) as (q2 & b & -> & [k1 HK] & HB). cbn [bind fst snd]. eauto 6.
      - injection N as <- <-. eexists _, _, k. split; [reflexivity|]. split.
        + unfold SetPage. cbn [pg_duration pg_raster]. rewrite ER. splits; auto.
          * unfold size_is. cbn [pg_raster]. destruct k; cbn [fits_in] in HF; [right; cbn; auto|left].
            unfold build_raster. rewrite HF. cbn. auto.
          * exists (background_rgb (rs_ctx (ap_rs p))). intros x y. unfold shown. cbn. destruct (in_raster _ _ _), (in_raster _ _ _); reflexivity.
        + unfold RestG. cbn. splits; auto. exists vs, ws. auto.
      - injection N as <- <-. eauto. }
    destruct o as [[a|e]|].
    + apply bind_val in H as (l & T & H). injection H as H. destruct ps as [|x ps]; [discriminate H|]. injection H as <- ->.
      destruct HN as (b & q1 & k1 & -> & HB & HK). destruct (IH _ _ _ HK _ T) as (qs & TQ & HQ). exists (b :: qs). cbn [bind]. rewrite TQ. auto.
    + apply bind_val in H as (l & T & H). injection H as H. destruct ps; discriminate H.
    + injection H as H. destruct ps; [|discriminate H]. destruct HN as (q1 & ->). exists []. auto.
Qed.

End Grow.

Lemma grown dx dy d d' n ms ms' vs vs' ps : SetInto dx dy d d' -> table_fields (d_fonts d) ->
  Meaning ms (map Ok vs) -> Meaning ms' (map Ok vs') -> Forall2 (MovedValue dx dy) vs vs' -> Framed vs ->
  pages_take Debug d n (pages_new d ms) = Val (map Ok ps) ->
  exists ps', pages_take Debug d' n (pages_new d' ms') = Val (map Ok ps') /\ Forall2 (SetPage dx dy d d') ps ps'.
Proof.
  intros HS HT HM HM' HV HF. rewrite (take_start Debug d n ms _ (meaning_okl _ _ HM)), (take_start Debug d' n ms' _ (meaning_okl _ _ HM')).
  apply (take_gr dx dy d d' HS HT n _ _ false). unfold RestG, a_start. cbn [ap_state ap_rs ap_rest]. splits; auto; [now apply same_new with (dx := dx) (dy := dy)|reflexivity|].
  exists vs, vs'. splits; auto. apply framed_of. intros a v b E Hv. left. eapply HF; eauto.
Qed.

Lemma bounded_moved vs : Bounded vs -> Forall2 (MovedValue 0 0) vs vs.
Proof.
  assert (E0 : forall r, moved_rect 0 0 r = r) by (intros []; unfold moved_rect; cbn; f_equal; lia).
  induction vs as [|v vs IH]; intros H; constructor.
  - destruct v; try (apply Mv_same; intros []; fail).
    + destruct (H r) as [W Hh]; [right; exists c; now left|]. rewrite <- (E0 r) at 2. now constructor.
    + match goal with |- MovedValue _ _ (VGraphic _ ?o) _ => destruct o as [[[a b] id]|]; [|now apply Mv_stay] end.
      rewrite <- (Z.add_0_r a) at 2. rewrite <- (Z.add_0_r b) at 2. constructor.
    + destruct (H r) as [W Hh]; [left; now left|]. rewrite <- (E0 r) at 2. now constructor.
  - apply IH. intros r [Hr|[c Hr]]; apply H; [left|right; exists c]; now right.
Qed.
