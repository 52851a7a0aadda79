(** Colour rectangles and graphics next to each other, and behind one another. *)

From Coq Require Import String Lia.
From Verif Require Import Base Str Multi Color Raster Font Graphic Config Sign Render
  Spec_Multi Spec_Color Spec_Sign Spec_Render Spec_Layout Spec_Draw Spec_Page Spec_Overlap
  Proofs_Str Proofs_Split Proofs_Norm Proofs_Gamut Proofs_Sign Proofs_Iter Proofs_Machine Proofs_Reach Proofs_Pages Proofs_Page Proofs_Fail Proofs_Follow Proofs_Repaint.
Open Scope list_scope.

Ltac sizes := repeat match goal with H : same_size _ _ |- _ => destruct H end; split; congruence.

(** ** Layers *)

Definition layer (p q : Raster rgb) (F : Z -> Z -> option rgb) : Prop :=
  same_size p q /\ forall x y, r_pixel q x y = match F x y with Some c => c | None => r_pixel p x y end.

(** Drawing that paints the same pixels on every raster of a size. *)
Definition Lay (P : Raster rgb -> M (Raster rgb)) (S : Z -> Z -> Prop) : Prop :=
  forall p q, P p = Val q -> exists F, (forall x y, F x y <> None -> S x y /\ in_raster p x y = true)
    /\ forall p', same_size p p' -> exists q', P p' = Val q' /\ layer p' q' F.

Lemma in_raster_size {P} (p p' : Raster P) x y : same_size p p' -> in_raster p x y = in_raster p' x y.
Proof. intros [W H]. unfold in_raster. now rewrite W, H. Qed.

Lemma size_sym {P} (p q : Raster P) : same_size p q -> same_size q p.
Proof. intros [H1 H2]. split; auto. Qed.

Lemma lay_id S : Lay (fun p => Val p) S.
Proof.
  intros p q [= <-]. exists (fun _ _ => None). split; [congruence|]. intros p' _. exists p'. split; auto. split; [apply same_size_refl|auto].
Qed.

Lemma lay_bind P Q S : Lay P S -> Lay Q S -> Lay (fun p => bind (P p) Q) S.
Proof.
  intros HP HQ p q H. apply bind_val in H as (p1 & H1 & H2). destruct (HP _ _ H1) as (F & HF & HL). destruct (HQ _ _ H2) as (G & HG & HM).
  destruct (HL p (same_size_refl p)) as (p1' & E & [S1 _]). rewrite H1 in E. injection E as <-.
  exists (fun x y => match G x y with Some c => Some c | None => F x y end). split.
  - intros x y N. destruct (G x y) eqn:EG; [|now apply HF]. destruct (HG x y) as [A B]; [congruence|]. split; auto. now rewrite (in_raster_size p p1).
  - intros p' SP. destruct (HL p' SP) as (q1 & E1 & [L1 L2]). destruct (HM q1) as (q2 & E2 & [M1 M2]).
    { eapply same_size_trans; [apply size_sym; exact S1|]. eapply same_size_trans; eauto. }
    exists q2. rewrite E1. cbn [bind]. split; auto. split; [eapply same_size_trans; eauto|]. intros x y. rewrite M2, L2. destruct (G x y); auto.
Qed.

Lemma lay_pixel (S : Z -> Z -> Prop) x y c : S x y -> Lay (fun p => set_pixel p x y c) S.
Proof.
  intros HS p q H. unfold set_pixel in H. destruct (in_raster p x y) eqn:E; [|discriminate].
  exists (fun a b => if (a =? x) && (b =? y) then Some c else None). split.
  - intros a b N. destruct (_ && _) eqn:EQ; [|congruence]. apply andb_true_iff in EQ as [E1 E2]. apply Z.eqb_eq in E1, E2. now subst.
  - intros p' SP. unfold set_pixel. rewrite <- (in_raster_size p p'), E by auto. eexists. split; [reflexivity|]. split; [split; reflexivity|]. cbn. intros a b. destruct (_ && _); auto.
Qed.

Lemma lay_row (S : Z -> Z -> Prop) g ctx ox oy yy xs : (forall a, In a xs -> S (ox + a) (oy + yy)) ->
  Lay (fun p => draw_row g ctx (fun c => c) ox oy p yy xs) S.
Proof.
  induction xs as [|a xs IH]; intros HS; [apply lay_id|]. cbn [draw_row]. apply lay_bind; [|apply IH; intros b Hb; apply HS; now right].
  unfold draw_pixel. destruct (pixel_fn g a yy ctx) as [[c|]| |]; cbn [bind].
  - apply lay_pixel, HS. now left.
  - apply lay_id.
  - intros p q H. discriminate.
  - intros p q H. discriminate.
Qed.

Lemma lay_rows (S : Z -> Z -> Prop) g ctx ox oy ys : (forall a b, 0 <= a < g_width g -> In b ys -> S (ox + a) (oy + b)) ->
  Lay (fun p => draw_rows g ctx (fun c => c) ox oy p ys) S.
Proof.
  induction ys as [|b ys IH]; intros HS; [apply lay_id|]. cbn [draw_rows]. apply lay_bind; [|apply IH; intros a c Ha Hc; apply HS; [auto|now right]].
  apply lay_row. intros a Ha. apply HS; [now apply in_zrange in Ha|now left].
Qed.

(** ** Pictures *)

Section Sign.
Variables (md : mode) (d : Dms).

Definition pict (v : Value) (ctx : ColorCtx) (p : Raster rgb) : M (result (Raster rgb) SyntaxError) :=
  match v with
  | VColorRectangle r c => tag_rect md r c ctx p
  | VGraphic n pos => let '(x, y, id) := match pos with Some q => q | None => (1, 1, None) end in tag_graphic md d n x y id ctx p
  | _ => Val (Ok p)
  end.

Lemma loop_pict v vs ctx p : picture v ->
  render_graphics_loop md d (bare (okv (v :: vs))) ctx p = try (pict v ctx p) (fun q => render_graphics_loop md d (bare (okv vs)) ctx q).
Proof.
  destruct v; intros []; cbn [okv map bare]; [rewrite loop_rect; reflexivity|]. rewrite loop_graphic. cbn [pict].
  destruct (match p0 with Some q => q | None => (1, 1, None) end) as [[x y] id]. reflexivity.
Qed.

Lemma pict_lay v ctx p q : value_ok v -> picture v -> SignSized d p -> pict v ctx p = Val (Ok q) ->
  exists F, (forall x y, F x y <> None -> Area d v x y /\ Shown d x y)
    /\ ((exists r c, v = VColorRectangle r c) -> forall x y, Shown d x y -> Area d v x y -> F x y <> None)
    /\ layer p q F
    /\ forall p', same_size p p' -> exists q', pict v ctx p' = Val (Ok q') /\ layer p' q' F.
Proof.
  intros HV HP [SW SH] H. destruct v; try contradiction; cbn [pict] in *.
  - unfold tag_rect in H. destruct (set_foreground ctx _ _) as [ctx' res] eqn:ES. apply try_ok in H as (u & EV & H). injection EV as ->.
    unfold render_rect in H. apply bind_val in H as (u1 & H1 & H). cbv zeta in H. apply bind_val in H as (i & H2 & H).
    destruct (rect_eqb _ _) eqn:EQ; [|discriminate].
    set (e := extend_width_height r (mkRect 1 1 (r_width p) (r_height p))) in *.
    assert (HQ : q = copy_color p (rx e - 1) (ry e - 1) (rwidth e) (rheight e) (foreground_rgb ctx')) by congruence. clear H. subst q.
    set (F := fun x y => if in_raster p x y && (rx e - 1 <=? x) && (x <? rx e - 1 + rwidth e) && (ry e - 1 <=? y) && (y <? ry e - 1 + rheight e)
                         then Some (foreground_rgb ctx') else None).
    assert (HF : forall x y, F x y <> None <-> Area d (VColorRectangle r c) x y /\ Shown d x y).
    { intros x y. unfold F, in_raster, Shown. cbn in HV. destruct HV as [(R1 & R2 & R3 & R4) _]. unfold u16 in *.
      assert (EX : rx e = rx r /\ ry e = ry r) by (split; reflexivity). destruct EX as [-> ->].
      assert (EW : rwidth e = if rwidth r =? 0 then Z.max 0 (r_width p - (rx r - 1)) else rwidth r).
      { unfold e, extend_width_height, sat_sub. cbn [rwidth rx]. destruct (Z.ltb_spec 0 (rwidth r)), (Z.eqb_spec (rwidth r) 0); lia. }
      assert (EH : rheight e = if rheight r =? 0 then Z.max 0 (r_height p - (ry r - 1)) else rheight r).
      { unfold e, extend_width_height, sat_sub. cbn [rheight ry]. destruct (Z.ltb_spec 0 (rheight r)), (Z.eqb_spec (rheight r) 0); lia. }
      clearbody e. split.
      - intros N. match type of N with (if ?b then _ else _) <> _ => destruct b eqn:E end; [|congruence].
        rewrite !andb_true_iff, !Z.leb_le, !Z.ltb_lt in E. split; [|lia]. constructor. unfold Covers. rewrite EW, EH in E. rewrite <- SW, <- SH.
        destruct (Z.eqb_spec (rwidth r) 0), (Z.eqb_spec (rheight r) 0); lia.
      - intros [A B]. inversion A as [? ? ? ? C|]; subst. unfold Covers in C. rewrite <- SW, <- SH in *.
        match goal with |- (if ?b then _ else _) <> _ => destruct b eqn:E end; [discriminate|]. exfalso.
        apply not_true_iff_false in E. apply E. rewrite !andb_true_iff, !Z.leb_le, !Z.ltb_lt, EW, EH.
        destruct (Z.eqb_spec (rwidth r) 0), (Z.eqb_spec (rheight r) 0); lia. }
    exists F. split; [intros x y N; now apply HF|]. split; [intros _ x y A B; now apply HF|]. split.
    + split; [split; reflexivity|]. intros x y. unfold F, copy_color. cbn [r_pixel]. match goal with |- context [if ?b then _ else _] => destruct b end; auto.
    + intros p' SP. unfold tag_rect. rewrite ES. cbn [try]. unfold render_rect. rewrite H1. cbn [bind]. cbv zeta.
      destruct SP as [SP1 SP2]. rewrite <- SP1, <- SP2. fold e. rewrite H2. cbn [bind]. rewrite EQ. eexists. split; [reflexivity|].
      split; [split; reflexivity|]. intros x y. unfold F, copy_color. cbn [r_pixel]. rewrite (in_raster_size p p') by (split; auto). match goal with |- context [if ?b then _ else _] => destruct b end; auto.
  - assert (EO : match p0 with Some q => q | None => (1, 1, None) end = or_else p0 (1, 1, None)) by (destruct p0; reflexivity).
    destruct (match p0 with Some q => q | None => (1, 1, None) end) as [[gx gy] id].
    unfold tag_graphic in H. apply try_ok in H as (g & HG & H). apply map_err_ok in H.
    assert (HGF : FirstGraphic (d_graphics d) n g).
    { unfold get_graphic in HG. apply FirstGraphic_lookup. destruct (graphic_lookup _ _); [|destruct id; discriminate].
      destruct id; [destruct (_ =? _); [|discriminate]|]; now injection HG as ->. }
    unfold render_graphic in H. apply bind_val in H as (u & Hu & H). cbv zeta in H.
    destruct (_ || _) eqn:EB; [discriminate|]. apply bind_val in H as (q1 & H & E). injection E as <-.
    destruct (lay_rows (Area d (VGraphic n p0)) g ctx (gx - 1) (gy - 1) (zrange (g_height g))) with (p := p) (q := q1) as (F & HF & HL); auto.
    { intros a b Ha Hb. apply in_zrange in Hb. econstructor; [exact HGF|]. rewrite <- EO. lia. }
    exists F. split; [|split; [|split]].
    + intros x y N. destruct (HF x y N) as [A B]. split; auto. unfold in_raster in B. rewrite !andb_true_iff, !Z.leb_le, !Z.ltb_lt in B. unfold Shown. lia.
    + intros (r & c & E). discriminate.
    + destruct (HL p (same_size_refl p)) as (q' & E & L). rewrite H in E. now injection E as <-.
    + intros p' SP. destruct (HL p' SP) as (q' & E & L). exists q'. split; auto. unfold tag_graphic. rewrite HG. cbn [try].
      unfold render_graphic. rewrite Hu. cbn [bind]. cbv zeta. destruct SP as [SP1 SP2]. rewrite <- SP1, <- SP2, EB. rewrite E. reflexivity.
Qed.

(** ** Rasters that differ only in an area *)

Definition Off (A : Z -> Z -> Prop) (p q : Raster rgb) : Prop :=
  same_size p q /\ forall x y, ~ A x y -> r_pixel p x y = r_pixel q x y.
Definition Nowhere (x y : Z) : Prop := False.

Lemma off_layer A p p' q q' F : Off A p p' -> layer p q F -> layer p' q' F -> Off A q q'.
Proof.
  intros [S H] [S1 H1] [S2 H2]. split.
  - sizes.
  - intros x y N. rewrite H1, H2. destruct (F x y); auto.
Qed.

(** One value that does not end its section. *)
Lemma loop_step v vs ctx p q : value_ok v -> inner v -> SignSized d p ->
  render_graphics_loop md d (bare (okv (v :: vs))) ctx p = Val (Ok q) ->
  exists ctx' p1, render_graphics_loop md d (bare (okv vs)) ctx' p1 = Val (Ok q) /\ SignSized d p1
    /\ forall A p', Off A p p' -> exists p1', Off A p1 p1'
       /\ forall vs', render_graphics_loop md d (bare (okv (v :: vs'))) ctx p' = render_graphics_loop md d (bare (okv vs')) ctx' p1'.
Proof.
  intros HV HI SP H.
  assert (PC : picture v \/ ~ picture v) by (destruct v; cbn; auto). destruct PC as [PC|PC].
  - rewrite loop_pict in H by auto. apply try_ok in H as (p1 & E & H). destruct (pict_lay v ctx p p1 HV PC SP E) as (F & _ & _ & L & HL).
    exists ctx, p1. splits; auto.
    + apply (SignSized_same d p); auto. apply L.
    + intros A p' HO. destruct (HL p' (proj1 HO)) as (p1' & E' & L'). exists p1'. split; [eapply off_layer; eauto|].
      intros vs'. rewrite loop_pict by auto. rewrite E'. reflexivity.
  - destruct v; try (exfalso; apply PC; exact I); try contradiction HI; cbn [okv map bare render_graphics_loop try] in *; try discriminate H;
      try (exists ctx, p; splits; auto; intros A p' HO; exists p'; split; auto; fail).
    + destruct (set_background _ _ _) as [c0 [u|e]]; cbn [try] in *; [|discriminate]. exists c0, p. splits; auto. intros A p' HO. exists p'. split; auto.
    + destruct (set_foreground _ _ _) as [c0 [u|e]]; cbn [try] in *; [|discriminate]. exists c0, p. splits; auto. intros A p' HO. exists p'. split; auto.
Qed.

(** The values, with what is known of them. *)
Inductive RW : list Value -> list Value -> Prop :=
| RW_nil : RW [] []
| RW_keep v vs ws : value_ok v -> RW vs ws -> RW (v :: vs) (v :: ws)
| RW_swap v w vs ws : value_ok v -> value_ok w -> Apart d v w -> RW vs ws -> RW (v :: w :: vs) (w :: v :: ws)
| RW_hide v l w vs ws : value_ok v -> value_ok w -> Forall value_ok l -> Behind d v w -> Forall inner l -> RW vs ws -> RW (v :: l ++ w :: vs) (l ++ w :: ws).

Lemma redrawn_rw vs ws : Redrawn d vs ws -> Forall value_ok vs -> RW vs ws.
Proof.
  induction 1 as [|v vs ws H IH|v w vs ws HA H IH|v l w vs ws HB H1 H2 H IH]; intros HV.
  - constructor.
  - inversion HV; subst. constructor; auto.
  - inversion HV as [|? ? V1 HV']; subst. inversion HV' as [|? ? V2 HV'']; subst. apply RW_swap; auto.
  - inversion HV as [|? ? V1 HV']; subst. apply Forall_app in HV' as [VL HV']. inversion HV' as [|? ? V2 HV'']; subst. apply RW_hide; auto.
    apply Forall_forall. intros u Hu. destruct u; cbn; auto. now apply (H2 r).
Qed.

Lemma graphics_redrawn vs ws : RW vs ws -> forall ctx p p' q, SignSized d p -> Off Nowhere p p' ->
  render_graphics_loop md d (bare (okv vs)) ctx p = Val (Ok q) ->
  exists q', render_graphics_loop md d (bare (okv ws)) ctx p' = Val (Ok q') /\ Off Nowhere q q'.
Proof.
  induction 1 as [|v vs ws HV H IH|v w vs ws HV HW (PV & PW & HA) H IH|v l w vs ws HV HW HL (PV & (r & c & ->) & HB) HI H IH]; intros ctx p p' q SP HO HG.
  - cbn in *. injection HG as <-. eauto.
  - assert (IC : inner v \/ ~ inner v) by (destruct v; cbn; auto). destruct IC as [IC|IC].
    + destruct (loop_step v vs ctx p q HV IC SP HG) as (ctx' & p1 & H1 & S1 & HS). destruct (HS Nowhere p' HO) as (p1' & O1 & E1). rewrite E1. eauto.
    + destruct v; try (exfalso; apply IC; exact I); cbn in *; injection HG as <-; eauto.
  - rewrite loop_pict in HG by auto. apply try_ok in HG as (p1 & E1 & HG). rewrite loop_pict in HG by auto. apply try_ok in HG as (p2 & E2 & HG).
    destruct (pict_lay v ctx p p1 HV PV SP E1) as (F & F1 & _ & L1 & F2).
    assert (SP1 : SignSized d p1) by (apply (SignSized_same d p); auto; apply L1).
    destruct (pict_lay w ctx p1 p2 HW PW SP1 E2) as (G & G1 & _ & L2 & G2).
    destruct (G2 p') as (q1 & D1 & K1). { eapply same_size_trans; [apply size_sym, L1|apply HO]. }
    destruct (F2 q1) as (q2 & D2 & K2). { eapply same_size_trans; [apply HO|apply K1]. }
    rewrite loop_pict, D1 by auto. cbn [try]. rewrite loop_pict, D2 by auto. cbn [try].
    apply (IH ctx p2 q2 q); auto; [apply (SignSized_same d p1); auto; apply L2|].
    destruct HO as [O1 O2]. destruct L1 as [A1 A2], L2 as [B1 B2], K1 as [C1 C2], K2 as [D3 D4]. split.
    + sizes.
    + intros x y N. rewrite B2, A2, D4, C2, (O2 x y N). specialize (HA x y). specialize (F1 x y). specialize (G1 x y).
      destruct (F x y), (G x y); auto. exfalso. destruct F1 as [? ?]; [discriminate|]. destruct G1 as [? ?]; [discriminate|]. now apply HA.
  - rewrite loop_pict in HG by auto. apply try_ok in HG as (p1 & E1 & HG).
    destruct (pict_lay v ctx p p1 HV PV SP E1) as (F & F1 & _ & L1 & _).
    assert (SP1 : SignSized d p1) by (apply (SignSized_same d p); auto; apply L1).
    set (A := fun x y => Area d v x y /\ Shown d x y).
    assert (O1 : Off A p1 p').
    { destruct HO as [O1 O2], L1 as [A1 A2]. split; [eapply same_size_trans; [apply size_sym; exact A1|exact O1]|]. intros x y N. rewrite A2, (O2 x y) by (intros []).
      destruct (F x y) eqn:EF; auto. exfalso. apply N. apply F1. congruence. }
    clear HO L1 E1 SP F1 F. revert ctx p1 p' HG SP1 O1. induction HI as [|u l HU HI IHl]; intros ctx p1 p' HG SP1 O1.
    + cbn [app] in *. rewrite loop_pict in HG by exact I. apply try_ok in HG as (p2 & E2 & HG).
      destruct (pict_lay _ ctx p1 p2 HW I SP1 E2) as (G & G1 & GC & L2 & G2).
      destruct (G2 p' (proj1 O1)) as (q1 & D1 & K1). rewrite loop_pict, D1 by exact I. cbn [try].
      apply (IH ctx p2 q1 q); auto; [apply (SignSized_same d p1); auto; apply L2|].
      destruct O1 as [O1 O2], L2 as [B1 B2], K1 as [C1 C2]. split.
      * sizes.
      * intros x y _. rewrite B2, C2. destruct (G x y) eqn:EG; auto. apply O2. intros [A1 A2]. apply (GC (ex_intro _ r (ex_intro _ c eq_refl)) x y); auto.
    + inversion HL as [|? ? VU VL]; subst. cbn [app] in *. destruct (loop_step u _ ctx p1 q VU HU SP1 HG) as (ctx' & p2 & H1 & S1 & HS).
      destruct (HS A p' O1) as (p2' & O2 & E2). rewrite E2. apply (IHl VL ctx' p2 p2'); auto.
Qed.

(** ** The other passes *)

Lemma pict_skip v vs : picture v ->
  (forall po rs spans lb, a_rtr md d (rs_new d) po (okv (v :: vs)) rs spans lb = a_rtr md d (rs_new d) po (okv vs) rs spans lb)
  /\ (forall rs, update_page_loop (rs_new d) (bare (okv (v :: vs))) rs = update_page_loop (rs_new d) (bare (okv vs)) rs)
  /\ (check_unsupported d (bare (okv (v :: vs))) = Val (Ok tt) <->
      Supports d v /\ check_unsupported d (bare (okv vs)) = Val (Ok tt)).
Proof.
  intros HP. splits; try (intros; destruct v; try contradiction; reflexivity).
  assert (HS : forall t, value_tag v = Some t -> (tag_bit t =? tag_bit TNp) = false /\ (Supports d v <-> contains_tag (supported_multi_tags (d_multi_cfg d)) t = true)).
  { intros t E. split; [destruct v; try contradiction; injection E as <-; reflexivity|]. rewrite contains_lists. split.
    - intros H. apply H. now apply value_tag_iff.
    - intros H t' Ht. apply value_tag_iff in Ht. congruence. }
  assert (exists t, value_tag v = Some t) as (t & E) by (destruct v; try contradiction; eexists; reflexivity).
  destruct (HS t E) as [H1 H2]. cbn [okv map bare check_unsupported try]. rewrite E, H1. destruct (contains_tag _ _); cbn [negb]; split.
  - intros H. split; [now apply H2|exact H].
  - intros [_ H]. exact H.
  - discriminate.
  - intros [H _]. apply H2 in H. discriminate.
Qed.

Lemma update_redrawn vs ws : RW vs ws -> forall rs,
  update_page_loop (rs_new d) (bare (okv vs)) rs = update_page_loop (rs_new d) (bare (okv ws)) rs.
Proof.
  assert (KEEP : forall v vs ws, (forall rs, update_page_loop (rs_new d) (bare (okv vs)) rs = update_page_loop (rs_new d) (bare (okv ws)) rs) ->
    forall rs, update_page_loop (rs_new d) (bare (okv (v :: vs))) rs = update_page_loop (rs_new d) (bare (okv (v :: ws))) rs).
  { intros v vs0 ws0 H rs. cbn [okv map bare update_page_loop bind]. fold (okv vs0) (okv ws0). fold (bare (okv vs0)) (bare (okv ws0)).
    destruct v; auto; destruct (set_background _ _ _) as [c0 [u|e]]; auto. }
  induction 1 as [|v vs ws HV H IH|v w vs ws HV HW (PV & PW & HA) H IH|v l w vs ws HV HW HL (PV & (r & c & ->) & HB) HI H IH]; auto.
  - intros rs. destruct (pict_skip v (w :: vs) PV) as (_ & E1 & _), (pict_skip w vs PW) as (_ & E2 & _), (pict_skip w (v :: ws) PW) as (_ & E3 & _), (pict_skip v ws PV) as (_ & E4 & _).
    now rewrite E1, E2, E3, E4.
  - intros rs. destruct (pict_skip v (l ++ VColorRectangle r c :: vs) PV) as (_ & E1 & _). rewrite E1. clear E1. revert rs.
    clear HI HL. induction l as [|u l IHl]; cbn [app]; apply KEEP; auto.
Qed.

Lemma check_redrawn vs ws : RW vs ws -> check_unsupported d (bare (okv vs)) = Val (Ok tt) -> check_unsupported d (bare (okv ws)) = Val (Ok tt).
Proof.
  assert (KEEP : forall v vs ws, (check_unsupported d (bare (okv vs)) = Val (Ok tt) -> check_unsupported d (bare (okv ws)) = Val (Ok tt)) ->
    check_unsupported d (bare (okv (v :: vs))) = Val (Ok tt) -> check_unsupported d (bare (okv (v :: ws))) = Val (Ok tt)).
  { intros v vs0 ws0 H. cbn [okv map bare check_unsupported try]. fold (okv vs0) (okv ws0). fold (bare (okv vs0)) (bare (okv ws0)).
    destruct (value_tag v); auto. destruct (negb _); auto. destruct (_ =? _); auto. }
  induction 1 as [|v vs ws HV H IH|v w vs ws HV HW (PV & PW & HA) H IH|v l w vs ws HV HW HL (PV & (r & c & ->) & HB) HI H IH]; auto.
  - now apply KEEP.
  - intros HC. apply (proj2 (proj2 (pict_skip v (w :: vs) PV))) in HC as [S1 HC]. apply (proj2 (proj2 (pict_skip w vs PW))) in HC as [S2 HC].
    apply (proj2 (proj2 (pict_skip w (v :: ws) PW))). split; auto. apply (proj2 (proj2 (pict_skip v ws PV))). auto.
  - intros HC. apply (proj2 (proj2 (pict_skip v (l ++ VColorRectangle r c :: vs) PV))) in HC as [_ HC]. revert HC. clear HI HL. induction l as [|u l IHl]; cbn [app]; apply KEEP; auto.
Qed.

Definition EndR (e e' : AEnd) : Prop :=
  a_rs e = a_rs e' /\ a_state e = a_state e' /\ a_spans e = a_spans e' /\ a_res e = a_res e'
  /\ (a_res e = Ok tt -> exists r s, a_rest e = okv r /\ a_rest e' = okv s /\ RW r s).

Lemma text_redrawn po vs ws : RW vs ws -> forall rs spans lb,
  MRel EndR (a_rtr md d (rs_new d) po (okv vs) rs spans lb) (a_rtr md d (rs_new d) po (okv ws) rs spans lb).
Proof.
  assert (KEEP : forall v vs ws, (inner v \/ RW vs ws) -> (forall rs spans lb, MRel EndR (a_rtr md d (rs_new d) po (okv vs) rs spans lb) (a_rtr md d (rs_new d) po (okv ws) rs spans lb)) ->
    forall rs spans lb, MRel EndR (a_rtr md d (rs_new d) po (okv (v :: vs)) rs spans lb) (a_rtr md d (rs_new d) po (okv (v :: ws)) rs spans lb)).
  { intros v a b HR IH rs spans lb.
    assert (bad : forall rs1 st sp e, MRel EndR (Val (mkA rs1 st (okv a) sp (Err e))) (Val (mkA rs1 st (okv b) sp (Err e)))).
    { intros. unfold EndR. cbn. splits; auto. discriminate. }
    assert (fine : ~ inner v -> forall rs1 st sp, MRel EndR (Val (mkA rs1 st (okv a) sp (Ok tt))) (Val (mkA rs1 st (okv b) sp (Ok tt)))).
    { intros N. destruct HR as [HR|HR]; [contradiction|]. intros. unfold EndR. cbn. splits; auto. intros _. eauto 6. }
    cbn [okv map a_rtr bind]. fold (okv a) (okv b). cbv zeta. destruct v; auto.
    + destruct (set_foreground _ _ _) as [c0 [w|e]]; auto.
    + destruct (is_charb c); auto. destruct (chk8 _ _); cbn [bind]; auto; exact I.
    + destruct j as [[]|]; auto.
    + destruct j as [[]|]; auto; destruct (negb _); auto.
    + match goal with |- context [if ?c then Val _ else _] => destruct c end; auto. destruct (chk8 _ _); cbn [bind]; auto; exact I.
    + destruct (_ && _); auto.
    + destruct (chk8 _ _); cbn [bind]; auto; exact I.
    + destruct (update_text_rectangle _ _ _ _) as [[q|]| |]; cbn [bind]; auto; exact I. }
  induction 1 as [|v vs ws HV H IH|v w vs ws HV HW (PV & PW & HA) H IH|v l w vs ws HV HW HL (PV & (r & c & ->) & HB) HI H IH]; auto.
  - intros. cbn. unfold EndR. cbn. splits; auto. intros _. exists [], []. splits; auto. constructor.
  - intros. destruct (pict_skip v (w :: vs) PV) as (E1 & _), (pict_skip w vs PW) as (E2 & _), (pict_skip w (v :: ws) PW) as (E3 & _), (pict_skip v ws PV) as (E4 & _).
    rewrite E1, E2, E3, E4. apply IH.
  - intros rs spans lb. destruct (pict_skip v (l ++ VColorRectangle r c :: vs) PV) as (E1 & _). rewrite E1. clear E1. revert rs spans lb.
    clear HL. induction HI as [|u l HU HI IHl]; cbn [app]; apply KEEP; auto.
Qed.

Lemma spans_redrawn all todo : forall p p' q, Off Nowhere p p' -> render_spans_loop md d all todo p = Val (Ok q) ->
  exists q', render_spans_loop md d all todo p' = Val (Ok q') /\ Off Nowhere q q'.
Proof.
  assert (RRO : forall p q, Off Nowhere p q <-> RR eq p q).
  { intros p q. unfold Off, RR, same_size. split; [intros ([A B] & C)|intros (A & B & C)]; splits; auto. }
  induction todo as [|s todo IH]; intros p p' q HO H; cbn [render_spans_loop] in *; [injection H as <-; eauto|].
  apply try_ok in H as (x & -> & H). apply try_ok in H as (y & -> & H). apply try_ok in H as (f & E & H). rewrite E. cbn [try].
  apply try_ok in H as (p1 & E1 & H). apply map_err_ok in E1.
  assert (HX : MRel (Res (RR eq) eq) (font_render_text md f p (span_str s) x y (char_spacing_font s f) (foreground_rgb (rs_ctx (span_state s)))) (font_render_text md f p' (span_str s) x y (char_spacing_font s f) (foreground_rgb (rs_ctx (span_state s))))).
  { apply text_rr; auto. now apply RRO. }
  unfold span_render_text. rewrite E1 in HX. destruct (font_render_text md f p' (span_str s) x y (char_spacing_font s f) (foreground_rgb (rs_ctx (span_state s)))) as [[p1'|e]| |]; cbn in HX; try contradiction.
  cbn [map_err bind try]. apply (IH p1); auto. now apply RRO.
Qed.

Lemma text_spans_redrawn spans p p' q : Off Nowhere p p' -> render_text_spans md d spans p = Val (Ok q) ->
  exists q', render_text_spans md d spans p' = Val (Ok q') /\ Off Nowhere q q'.
Proof. unfold render_text_spans. intros HO H. apply try_ok in H as (u & -> & H). cbn [try]. eapply spans_redrawn; eauto. Qed.

(** ** Pages *)

Definition Same (p q : AP) : Prop :=
  ap_rs p = ap_rs q /\ ap_state p = ap_state q /\ exists r s, ap_rest p = okv r /\ ap_rest q = okv s /\ RW r s.

Lemma loop_redrawn fuel : forall n p q a b p1 a1, Same p q -> SignSized d a -> Off Nowhere a b ->
  a_page_loop md d fuel n p a = Val (p1, Ok a1) ->
  exists q1 b1, a_page_loop md d fuel n q b = Val (q1, Ok b1) /\ Same p1 q1 /\ Off Nowhere a1 b1.
Proof.
  induction fuel as [|f IH]; intros n p q a b p1 a1 HS SP HO H; [discriminate|]. pose proof HS as (ER & ES & r & s & E1 & E2 & HR).
  destruct (ap_state p) as [[|]|?|] eqn:Est; cbn [a_page_loop] in *; rewrite <- ES, ?Est in *; try (injection H as <- <-; eauto 6; fail).
  apply bind_val in H as (g & HG & H). rewrite E1 in HG. destruct g as [a2|e]; [|discriminate].
  destruct (graphics_redrawn r s HR _ a b a2 SP HO HG) as (b2 & HG' & HO2). rewrite E2, <- ER, HG'. cbn [bind].
  apply bind_val in H as ([p2 x] & HT & H). destruct x as [a3|e]; [|discriminate].
  unfold a_text_rect in HT |- *. rewrite E1 in HT. rewrite E2, <- ER.
  pose proof (text_redrawn (0 <? rs_off_time (ap_rs p)) r s HR (ap_rs p) [] true) as HX.
  apply bind_val in HT as (e & He & HT). rewrite He in HX.
  destruct (a_rtr _ _ _ _ (okv s) _ _ _) as [e'| |]; cbn in HX; try contradiction. destruct HX as (X1 & X2 & X3 & X4 & X5).
  cbn [bind]. rewrite <- X4, <- X1, <- X2, <- X3. destruct (a_res e) as [[]|er]; [|discriminate].
  apply bind_val in HT as (y & Hy & HT). injection HT as <- ->. 
  destruct (text_spans_redrawn _ _ _ _ HO2 Hy) as (b3 & Hy' & HO3). rewrite Hy'. cbn [bind].
  destruct (MAX_TEXT_RECTANGLES <? n + 1); [discriminate|].
  destruct (X5 eq_refl) as (r' & s' & F1 & F2 & HR').
  apply (IH (n + 1) (mkAP (a_rs e) (a_state e) (a_rest e)) _ a3 b3 p1 a1); auto.
  - unfold Same. cbn. split; [auto|]. split; [auto|]. exists r', s'. auto.
  - eapply SignSized_same; [|exact SP]. apply graphics_size in HG. apply text_spans_size in Hy. eapply same_size_trans; eauto.
Qed.

Lemma update_rect vs : forall rs rs', update_page_loop (rs_new d) (bare (okv vs)) rs = Val (rs', Ok tt) -> rs_rect rs' = rs_rect rs.
Proof.
  induction vs as [|v vs IH]; intros rs rs' H; [cbn in H; now injection H as <-|].
  cbn [okv map bare update_page_loop bind] in H. fold (okv vs) in H. fold (bare (okv vs)) in H.
  destruct v; try (apply IH in H; exact H); try (injection H as <-; reflexivity).
  - destruct (set_background _ _ _) as [c0 [u|e]]; [|discriminate]. apply IH in H. exact H.
  - destruct (set_background _ _ _) as [c0 [u|e]]; [|discriminate]. apply IH in H. exact H.
Qed.

Lemma off_image p q : Off Nowhere p q -> SameImage p q.
Proof. intros [[W H] P]. unfold SameImage. splits; auto. intros x y _. symmetry. apply P. intros []. Qed.

Lemma on_page_redrawn p q p1 P : Same p q -> a_on_page md d p = Val (p1, Ok P) ->
  exists q1 Q, a_on_page md d q = Val (q1, Ok Q) /\ Same p1 q1 /\ SamePage P Q.
Proof.
  intros (ER & ES & r & s & E1 & E2 & HR) H. unfold a_on_page in *. cbv zeta in *. rewrite E1 in H. rewrite E2, <- ER.
  apply bind_val in H as (c & HC & H). destruct c as [[]|e]; [|discriminate]. rewrite (check_redrawn r s HR HC). cbn [bind].
  apply bind_val in H as ([rs u] & HU & H). unfold update_page_state in *. cbv zeta in *. rewrite <- (update_redrawn r s HR), HU. cbn [bind].
  destruct u as [[]|e]; [|discriminate]. apply bind_val in H as ([p2 x] & HL & H). destruct x as [a|e]; [|discriminate]. injection H as <- <-.
  apply update_rect in HU.
  assert (A1 : Same (mkAP rs (PsOn false) (okv r)) (mkAP rs (PsOn false) (okv s))) by (unfold Same; cbn; splits; auto; exists r, s; auto).
  assert (A2 : SignSized d (build_raster rs)) by (unfold SignSized, build_raster; cbn [with_color r_width r_height]; rewrite HU; split; reflexivity).
  assert (A3 : Off Nowhere (build_raster rs) (build_raster rs)) by (split; [apply same_size_refl|auto]).
  destruct (loop_redrawn 52 0 _ _ _ _ p2 a A1 A2 A3 HL) as (q1 & b & HL' & HS & HO).
  rewrite HL'. cbn [bind]. do 2 eexists. split; [reflexivity|]. split; [exact HS|]. split; [cbn; now rewrite (proj1 HS)|]. now apply off_image.
Qed.

Lemma take_redrawn n : forall p q ps, Same p q -> a_take md d n p = Val (map Ok ps) ->
  exists qs, a_take md d n q = Val (map Ok qs) /\ Forall2 SamePage ps qs.
Proof.
  induction n as [|n IH]; intros p q ps HS H; cbn [a_take] in *.
  - exists []. destruct ps; [|discriminate]. split; [reflexivity|constructor].
  - apply bind_val in H as ([o p1] & HN & H).
    assert (HN' : exists o' q1, a_next md d q = Val (o', q1) /\ Same p1 q1 /\ match o, o' with
       | Some (Ok P), Some (Ok Q) => SamePage P Q | Some (Err _), _ => True | None, None => True | _, _ => False end \/ exists e, o = Some (Err e)).
    { pose proof HS as (ER & ES & HR). unfold a_next in *. rewrite <- ES. destruct (ap_state p) as [x|x|] eqn:Est.
      - apply bind_val in HN as ([p2 y] & HP & E). injection E as <- <-. destruct y as [P|e]; [|exists None, p; right; eauto].
        destruct (on_page_redrawn p q p2 P HS HP) as (q2 & Q & HQ & HS2 & HE). rewrite HQ. do 2 eexists. left. cbn [bind]. splits; [reflexivity|exact HS2|exact HE].
      - injection HN as <- <-. do 2 eexists. left. splits; [reflexivity|unfold Same; cbn; splits; auto|].
        rewrite <- ER. split; [reflexivity|]. apply off_image. split; [apply same_size_refl|auto].
      - injection HN as <- <-. do 2 eexists. left. splits; [reflexivity|exact HS|exact I]. }
    destruct HN' as (o' & q1 & [(HN' & HS' & HE)|(e & ->)]).
    + rewrite HN'. cbn [bind]. destruct o as [x|].
      * apply bind_val in H as (l & Hl & E). destruct ps as [|P ps]; [discriminate|]. injection E as -> ->.
        destruct o' as [[Q|e]|]; try contradiction. destruct (IH p1 q1 ps HS' Hl) as (qs & Hq & HF). rewrite Hq. cbn [bind].
        exists (Q :: qs). split; [reflexivity|now constructor].
      * destruct o' as [|]; [contradiction|]. destruct ps; [|discriminate]. exists []. split; [reflexivity|constructor].
    + cbn [bind] in H. apply bind_val in H as (l & Hl & E). destruct ps; discriminate.
Qed.

End Sign.

Lemma redrawn md d ms ms' vs ws n ps : Meaning ms (map Ok vs) -> Meaning ms' (map Ok ws) -> Redrawn d vs ws ->
  pages_take md d n (pages_new d ms) = Val (map Ok ps) ->
  exists qs, pages_take md d n (pages_new d ms') = Val (map Ok qs) /\ Forall2 SamePage ps qs.
Proof.
  intros HM HM' HR H. destruct (Tokens_exists ms) as (ts & HT). destruct (Tokens_exists ms') as (ts' & HT').
  rewrite !(take_start md d _ ms _ (Reads_new _ _ HT)) in *. rewrite !(take_start md d _ ms' _ (Reads_new _ _ HT')) in *.
  rewrite (meaning_okv ms vs ts HT HM) in *. rewrite (meaning_okv ms' ws ts' HT' HM') in *.
  eapply take_redrawn; [|exact H]. unfold Same, a_start. cbn. splits; auto. exists vs, ws. splits; auto.
  apply redrawn_rw; auto. eapply Meaning_oks_ok; eauto.
Qed.
