(** Proofs about colours and rectangles. *)

From Verif Require Import Base Str Multi Color Spec_Color Proofs_Str.
From Coq Require Import ZifyBool.
Ltac Zify.zify_post_hook ::= Z.div_mod_to_equations.

Lemma div255 c : 0 <= c <= 65025 -> Z.shiftr ((c + 1) + Z.shiftr c 8) 8 = c / 255.
Proof. intros H. rewrite !Z.shiftr_div_pow2 by lia. change (2 ^ 8) with 256. lia. Qed.

Lemma lerp_level bg fg v : u8 bg -> u8 fg -> u8 v -> lerp bg fg v = level_up bg fg v.
Proof.
  unfold u8, lerp, level_up, level. intros Hb Hf Hv.
  set (d := Z.max bg fg - Z.min bg fg). assert (Hd : 0 <= d <= 255) by lia.
  assert (Hc : 0 <= d * v <= 65025) by nia. rewrite div255 by auto.
  rewrite Z.mod_small by (clearbody d; lia). rewrite (Z.mul_comm v d). reflexivity.
Qed.

Lemma lerp_up bg fg v : u8 fg -> 0 <= bg <= fg -> u8 v -> lerp bg fg v = level bg fg v.
Proof.
  unfold u8. intros Hf Hb Hv. rewrite lerp_level by (unfold u8; lia). unfold level_up.
  now rewrite Z.min_l, Z.max_r by lia.
Qed.

Lemma lerp_range bg fg v : u8 bg -> u8 fg -> u8 v ->
  Z.min bg fg <= lerp bg fg v <= Z.max bg fg.
Proof.
  intros Hb Hf Hv. rewrite lerp_level by auto. unfold level_up, level, u8 in *.
  remember (Z.max bg fg - Z.min bg fg) as d eqn:Ed. assert (Hd : 0 <= d <= 255) by lia.
  assert (Hc : 0 <= v * d <= 255 * d) by nia.
  assert (0 <= v * d / 255 <= d) by (split; [apply Z.div_pos; lia|apply Z.div_le_upper_bound; lia]).
  lia.
Qed.

Lemma lerp_mono bg fg v w : u8 bg -> u8 fg -> u8 v -> u8 w -> v <= w -> lerp bg fg v <= lerp bg fg w.
Proof.
  intros Hb Hf Hv Hw H. rewrite !lerp_level by auto. unfold level_up, level.
  apply Z.add_le_mono_l, Z.div_le_mono; [lia|]. apply Z.mul_le_mono_nonneg_r; lia.
Qed.

Lemma lerp_ends bg fg : u8 bg -> u8 fg -> lerp bg fg 0 = Z.min bg fg /\ lerp bg fg 255 = Z.max bg fg.
Proof.
  intros Hb Hf. rewrite !lerp_level by (auto; unfold u8; lia). unfold level_up, level.
  rewrite Z.mul_0_l, Z.mul_comm, Z.div_mul by lia. change (0 / 255) with 0. lia.
Qed.

(** ** Colours *)

Lemma classic_palette v : u8 v -> rgb_classic v = nth_error palette (Z.to_nat v).
Proof.
  unfold u8, rgb_classic, classic_from_u8, palette. intros H.
  repeat match goal with |- context [?a =? ?b] => destruct (Z.eqb_spec a b); [subst; reflexivity|] end.
  symmetry. apply nth_error_None. cbn. lia.
Qed.

Lemma ctx_rgb_iff ctx c x : ctx_ok ctx -> match c with Legacy v => u8 v | _ => True end ->
  ctx_rgb ctx c = Some x <-> Shows ctx c x.
Proof.
  intros [Hf Hb] Hc. unfold ctx_rgb. split.
  - destruct (color_scheme ctx) eqn:ES, c as [v|r g b]; try discriminate.
    + unfold rgb_monochrome_1. destruct (Z.eqb_spec v 0) as [->|].
      { intros E; injection E as <-. now constructor. }
      destruct (Z.eqb_spec v 1) as [->|]; [|discriminate]. intros E; injection E as <-. now constructor.
    + unfold rgb_monochrome_8. destruct (bg_default ctx) as [[b0 b1] b2] eqn:EB.
      destruct (fg_default ctx) as [[f0 f1] f2] eqn:EF. intros E; injection E as <-.
      cbn in Hf, Hb. rewrite !lerp_level by tauto. now constructor.
    + rewrite classic_palette by auto. intros E. constructor; auto. unfold u8 in Hc; lia.
    + rewrite classic_palette by auto. intros E. constructor; auto. unfold u8 in Hc; lia.
    + intros E; injection E as <-. now constructor.
  - intros H. destruct H as [ES|ES|v b0 b1 b2 f0 f1 f2 ES EB EF|v x ES Hv E|r g b ES].
    + now rewrite ES.
    + now rewrite ES.
    + rewrite ES. unfold rgb_monochrome_8. rewrite EB, EF. rewrite EB in Hb. rewrite EF in Hf.
      cbn in Hf, Hb. rewrite !lerp_level by tauto. reflexivity.
    + rewrite <- classic_palette in E by auto. now destruct ES as [-> | ->].
    + now rewrite ES.
Qed.

Lemma ctx_rgb_none ctx c : ctx_ok ctx -> match c with Legacy v => u8 v | _ => True end ->
  ctx_rgb ctx c = None <-> forall x, ~ Shows ctx c x.
Proof.
  intros Ho Hc. destruct (ctx_rgb ctx c) as [x|] eqn:E.
  - apply ctx_rgb_iff in E; auto. split; [discriminate|]. intros H. exfalso. eapply H; eauto.
  - split; auto. intros _ x Hx. apply ctx_rgb_iff in Hx; auto. congruence.
Qed.

Definition with_fg (ctx : ColorCtx) (c : Color) : ColorCtx :=
  mkCtx (color_scheme ctx) (fg_default ctx) c (bg_default ctx) (bg_current ctx).
Definition with_bg (ctx : ColorCtx) (c : Color) : ColorCtx :=
  mkCtx (color_scheme ctx) (fg_default ctx) (fg_current ctx) (bg_default ctx) c.

Lemma ctx_rgb_with_fg ctx c d : ctx_rgb (with_fg ctx c) d = ctx_rgb ctx d.
Proof. reflexivity. Qed.
Lemma ctx_rgb_with_bg ctx c d : ctx_rgb (with_bg ctx c) d = ctx_rgb ctx d.
Proof. reflexivity. Qed.

Lemma rgb_of_default ctx d :
  match ctx_rgb ctx (color_of_rgb d) with Some x => x | None => d end = d.
Proof. destruct d as [[r g] b]. unfold ctx_rgb. cbn. destruct (color_scheme ctx); reflexivity. Qed.

Lemma set_foreground_spec ctx c v ctx' r : ctx_ok ctx ->
  match c with Some (Legacy v) => u8 v | _ => True end ->
  set_foreground ctx c v = (ctx', r) ->
  SetsColor foreground_rgb background_rgb (fg_default ctx) ctx ctx' c v r.
Proof.
  intros Ho Hc E. unfold SetsColor. destruct c as [c|]; cbn [set_foreground] in E.
  - destruct (ctx_rgb ctx c) as [x|] eqn:EC; injection E as <- <-.
    + splits; auto. left. exists x. pose proof EC as EC'.
      apply ctx_rgb_iff in EC'; auto. splits; auto.
      unfold foreground_rgb. change (ctx_rgb (with_fg ctx c) c) with (ctx_rgb ctx c) in *.
      fold (with_fg ctx c). cbn [fg_current with_fg]. rewrite ctx_rgb_with_fg, EC. reflexivity.
    + splits; auto. right. splits; auto. apply ctx_rgb_none; auto.
  - injection E as <- <-. splits; auto. unfold foreground_rgb. cbn [fg_current fg_default].
    apply rgb_of_default.
Qed.

Lemma set_background_spec ctx c v ctx' r : ctx_ok ctx ->
  match c with Some (Legacy v) => u8 v | _ => True end ->
  set_background ctx c v = (ctx', r) ->
  SetsColor background_rgb foreground_rgb (bg_default ctx) ctx ctx' c v r.
Proof.
  intros Ho Hc E. unfold SetsColor. destruct c as [c|]; cbn [set_background] in E.
  - destruct (ctx_rgb ctx c) as [x|] eqn:EC; injection E as <- <-.
    + splits; auto. left. exists x. pose proof EC as EC'.
      apply ctx_rgb_iff in EC'; auto. splits; auto.
      unfold background_rgb. fold (with_bg ctx c). cbn [bg_current with_bg].
      rewrite ctx_rgb_with_bg, EC. reflexivity.
    + splits; auto. right. splits; auto. apply ctx_rgb_none; auto.
  - injection E as <- <-. splits; auto. unfold background_rgb. cbn [bg_current bg_default].
    apply rgb_of_default.
Qed.

Lemma ctx_new_spec s fg bg :
  foreground_rgb (ctx_new s fg bg) = fg /\ background_rgb (ctx_new s fg bg) = bg.
Proof.
  unfold foreground_rgb, background_rgb. cbn [ctx_new fg_current bg_current fg_default bg_default].
  split; apply rgb_of_default.
Qed.

(** ** Rectangles *)

Lemma chk_in md b v : 0 <= v < b -> chk md b v = Val v.
Proof. unfold chk. intros H. destruct (Z.leb_spec 0 v), (Z.ltb_spec v b); cbn; auto; lia. Qed.
Lemma chk16_in md v : 0 <= v < 65536 -> chk16 md v = Val v.
Proof. apply chk_in. Qed.
Lemma chk_debug b v : chk Debug b v = Panic <-> ~ (0 <= v < b).
Proof.
  unfold chk. destruct (Z.leb_spec 0 v), (Z.ltb_spec v b); cbn; split; auto; try discriminate; lia.
Qed.

Lemma intersection_val md a b : u16_rect a -> u16_rect b -> edges_fit a -> edges_fit b ->
  let l := Z.max (rx a) (rx b) in
  let r := Z.min (rx a + rwidth a) (rx b + rwidth b) in
  let t := Z.max (ry a) (ry b) in
  let m := Z.min (ry a + rheight a) (ry b + rheight b) in
  intersection md a b =
  Val (if (l <? r) && (t <? m) then mkRect l t (r - l) (m - t) else rect_default).
Proof.
  unfold u16_rect, edges_fit, u16. intros Ha Hb [Ha1 Ha2] [Hb1 Hb2]. cbv zeta. unfold intersection.
  rewrite !chk16_in by lia. cbn [bind].
  destruct (_ && _) eqn:E; auto. apply andb_true_iff in E as [E1 E2].
  apply Z.ltb_lt in E1, E2. rewrite !chk16_in by lia. reflexivity.
Qed.

Lemma intersection_spec md a b : u16_rect a -> u16_rect b -> edges_fit a -> edges_fit b ->
  exists r, intersection md a b = Val r
    /\ (forall x y, InRect r x y <-> InRect a x y /\ InRect b x y)
    /\ ((forall x y, ~ (InRect a x y /\ InRect b x y)) -> r = mkRect 1 1 0 0).
Proof.
  intros Ha Hb Ea Eb. rewrite intersection_val by auto. cbv zeta. eexists. split; [reflexivity|].
  unfold u16_rect, edges_fit, u16, InRect in *.
  destruct (_ && _) eqn:E; cbn [rx ry rwidth rheight rect_default].
  - split; [intros x y; lia|]. intros H. exfalso.
    apply (H (Z.max (rx a) (rx b)) (Z.max (ry a) (ry b))). lia.
  - split; [intros x y; lia|reflexivity].
Qed.

Lemma intersection_fault a b : u16_rect a -> u16_rect b ->
  intersection Debug a b = Panic <-> ~ (edges_fit a /\ edges_fit b).
Proof.
  intros Ha Hb. split.
  - intros E [Ea Eb]. rewrite intersection_val in E by auto. discriminate.
  - intros H. unfold intersection, edges_fit, u16_rect, u16 in *.
    assert (C : forall v, 0 <= v -> {v < 65536 /\ chk16 Debug v = Val v} + {65536 <= v /\ chk16 Debug v = Panic}).
    { intros v Hv. destruct (Z_lt_le_dec v 65536); [left|right]; split; auto.
      - apply chk16_in; lia. - apply chk_debug; lia. }
    destruct (C (rx a + rwidth a)) as [[? ->]|[? ->]]; [lia| |reflexivity]. cbn [bind].
    destruct (C (rx b + rwidth b)) as [[? ->]|[? ->]]; [lia| |reflexivity]. cbn [bind].
    destruct (C (ry a + rheight a)) as [[? ->]|[? ->]]; [lia| |reflexivity]. cbn [bind].
    destruct (C (ry b + rheight b)) as [[? ->]|[? ->]]; [lia| |reflexivity]. lia.
Qed.

Lemma contains_val md a b : u16_rect a -> u16_rect b -> edges_fit a -> edges_fit b ->
  rect_contains md a b = Val ((rx a <=? rx b) && (rx b + rwidth b <=? rx a + rwidth a)
    && (ry a <=? ry b) && (ry b + rheight b <=? ry a + rheight a)).
Proof.
  unfold u16_rect, edges_fit, u16. intros Ha Hb [Ha1 Ha2] [Hb1 Hb2]. unfold rect_contains.
  destruct (rx a <=? rx b); cbn [negb andb]; auto. rewrite !chk16_in by lia. cbn [bind].
  destruct (rx b + rwidth b <=? rx a + rwidth a); cbn [negb andb]; auto.
  destruct (ry a <=? ry b); cbn [negb andb]; auto.
Qed.

Lemma contains_spec md a b : u16_rect a -> u16_rect b -> edges_fit a -> edges_fit b ->
  exists c, rect_contains md a b = Val c
    /\ (c = true -> forall x y, InRect b x y -> InRect a x y)
    /\ (0 < rwidth b -> 0 < rheight b ->
        (forall x y, InRect b x y -> InRect a x y) -> c = true).
Proof.
  intros Ha Hb Ea Eb. rewrite contains_val by auto. eexists. split; [reflexivity|].
  unfold InRect, u16_rect, u16 in *. split.
  - intros H x y. lia.
  - intros Hw Hh H. pose proof (H (rx b) (ry b)). 
    pose proof (H (rx b + rwidth b - 1) (ry b + rheight b - 1)). lia.
Qed.

Lemma extend_spec r full x y : u16_rect r -> u16_rect full -> 1 <= rx r -> 1 <= ry r ->
  InRect (extend_width_height r full) x y <->
  rx r <= x /\ (if rwidth r =? 0 then x <= rwidth full else x < rx r + rwidth r)
  /\ ry r <= y /\ (if rheight r =? 0 then y <= rheight full else y < ry r + rheight r).
Proof.
  unfold u16_rect, u16, InRect, extend_width_height, sat_sub. intros Hr Hf Hx Hy.
  cbn [rx ry rwidth rheight].
  destruct (Z.ltb_spec 0 (rwidth r)), (Z.eqb_spec (rwidth r) 0); try lia;
  destruct (Z.ltb_spec 0 (rheight r)), (Z.eqb_spec (rheight r) 0); lia.
Qed.
