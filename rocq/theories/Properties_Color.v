(** Properties C14 to C16: colours and rectangles. *)

From Coq Require Import String.
From Verif Require Import Base Str Multi Color Spec_Color Proofs_Color.

(** ** C14

    False when a foreground component is below the background component: the
    code then interpolates from the foreground (level 0) to the background
    (level 255). *)

Theorem c14_levels_refuted : exists bg fg, u8 bg /\ u8 fg /\ lerp bg fg 0 <> level bg fg 0
  /\ lerp bg fg 255 <> level bg fg 255.
Proof. exists 255, 0. unfold u8. repeat split; vm_compute; congruence. Qed.
Print Assumptions c14_levels_refuted.

Theorem c14_levels_partial : forall bg fg v, u8 fg -> 0 <= bg <= fg -> u8 v ->
  lerp bg fg v = level bg fg v.
Proof. exact lerp_up. Qed.
Print Assumptions c14_levels_partial.

(** For all components: between the smaller and the larger. *)
Theorem c14_levels_up_partial : forall bg fg v, u8 bg -> u8 fg -> u8 v ->
  lerp bg fg v = level_up bg fg v.
Proof. exact lerp_level. Qed.
Print Assumptions c14_levels_up_partial.

Theorem c14_levels_range : forall bg fg v, u8 bg -> u8 fg -> u8 v ->
  Z.min bg fg <= lerp bg fg v <= Z.max bg fg.
Proof. exact lerp_range. Qed.
Print Assumptions c14_levels_range.

Theorem c14_levels_ends_partial : forall bg fg, u8 bg -> u8 fg ->
  lerp bg fg 0 = Z.min bg fg /\ lerp bg fg 255 = Z.max bg fg.
Proof. exact lerp_ends. Qed.
Print Assumptions c14_levels_ends_partial.

Theorem c14_levels_monotone : forall bg fg v w, u8 bg -> u8 fg -> u8 v -> u8 w -> v <= w ->
  lerp bg fg v <= lerp bg fg w.
Proof. exact lerp_mono. Qed.
Print Assumptions c14_levels_monotone.

Example c14_example : lerp 10 200 128 = 105 /\ level 10 200 128 = 105 /\ lerp 10 200 255 = 200.
Proof. repeat split. Qed.

(** ** C15 *)

Theorem c15_shown_color : forall ctx c x, ctx_ok ctx ->
  match c with Legacy v => u8 v | _ => True end ->
  ctx_rgb ctx c = Some x <-> Shows ctx c x.
Proof. exact ctx_rgb_iff. Qed.
Print Assumptions c15_shown_color.

Theorem c15_set_foreground : forall ctx c v ctx' r, ctx_ok ctx ->
  match c with Some (Legacy v) => u8 v | _ => True end ->
  set_foreground ctx c v = (ctx', r) ->
  SetsColor foreground_rgb background_rgb (fg_default ctx) ctx ctx' c v r.
Proof. exact set_foreground_spec. Qed.
Print Assumptions c15_set_foreground.

Theorem c15_set_background : forall ctx c v ctx' r, ctx_ok ctx ->
  match c with Some (Legacy v) => u8 v | _ => True end ->
  set_background ctx c v = (ctx', r) ->
  SetsColor background_rgb foreground_rgb (bg_default ctx) ctx ctx' c v r.
Proof. exact set_background_spec. Qed.
Print Assumptions c15_set_background.

Theorem c15_initial_colors : forall s fg bg,
  foreground_rgb (ctx_new s fg bg) = fg /\ background_rgb (ctx_new s fg bg) = bg.
Proof. exact ctx_new_spec. Qed.
Print Assumptions c15_initial_colors.

Definition c15_ctx := ctx_new ColorClassicScheme (255, 208, 0) (0, 0, 0).
Example c15_example : ctx_ok c15_ctx /\ Shows c15_ctx (Legacy 9) (255, 208, 0)
  /\ (forall x, ~ Shows c15_ctx (Legacy 10) x) /\ (forall x, ~ Shows c15_ctx (Rgb 1 2 3) x).
Proof.
  assert (H : ctx_ok c15_ctx) by (cbv; repeat split; congruence). split; [exact H|].
  split; [apply c15_shown_color; auto; cbv; split; congruence|].
  split; apply ctx_rgb_none; auto; cbv; split; congruence.
Qed.

(** ** C16

    False when an edge does not fit 16 bits: an arithmetic fault (a panic with
    overflow checks; without them the edge wraps and overlapping rectangles are
    taken as disjoint). *)

Theorem c16_no_fault_refuted : exists a b, u16_rect a /\ u16_rect b
  /\ intersection Debug a b = Panic /\ rect_contains Debug a b = Panic
  /\ InRect a 65535 1 /\ InRect b 65535 1 /\ intersection Release a b = Val (mkRect 1 1 0 0).
Proof.
  exists (mkRect 65535 1 1 1), (mkRect 65535 1 1 1). unfold u16_rect, u16, InRect. cbn -[Z.lt Z.le].
  repeat split; try lia; reflexivity.
Qed.
Print Assumptions c16_no_fault_refuted.

Theorem c16_fault_partial : forall a b, u16_rect a -> u16_rect b ->
  intersection Debug a b = Panic <-> ~ (edges_fit a /\ edges_fit b).
Proof. exact intersection_fault. Qed.
Print Assumptions c16_fault_partial.

Theorem c16_intersection_partial : forall md a b,
  u16_rect a -> u16_rect b -> edges_fit a -> edges_fit b ->
  exists r, intersection md a b = Val r
    /\ (forall x y, InRect r x y <-> InRect a x y /\ InRect b x y)
    /\ ((forall x y, ~ (InRect a x y /\ InRect b x y)) -> r = mkRect 1 1 0 0).
Proof. exact intersection_spec. Qed.
Print Assumptions c16_intersection_partial.

(** An empty rectangle is a subset of every one, but is only "contained" when
    its corner and edges are within bounds. *)
Theorem c16_contains_empty_refuted : exists a b, u16_rect a /\ u16_rect b /\ edges_fit a /\ edges_fit b
  /\ (forall x y, InRect b x y -> InRect a x y) /\ forall md, rect_contains md a b = Val false.
Proof.
  exists (mkRect 5 5 1 1), (mkRect 1 1 0 0). unfold u16_rect, u16, edges_fit, InRect. cbn -[Z.lt Z.le].
  repeat split; try lia.
Qed.
Print Assumptions c16_contains_empty_refuted.

Theorem c16_contains_partial : forall md a b,
  u16_rect a -> u16_rect b -> edges_fit a -> edges_fit b ->
  exists c, rect_contains md a b = Val c
    /\ (c = true -> forall x y, InRect b x y -> InRect a x y)
    /\ (0 < rwidth b -> 0 < rheight b ->
        (forall x y, InRect b x y -> InRect a x y) -> c = true).
Proof. exact contains_spec. Qed.
Print Assumptions c16_contains_partial.

(** Zero width or height means up to the edge of the full rectangle. *)
Theorem c16_extend : forall r full x y, u16_rect r -> u16_rect full -> 1 <= rx r -> 1 <= ry r ->
  InRect (extend_width_height r full) x y <->
  rx r <= x /\ (if rwidth r =? 0 then x <= rwidth full else x < rx r + rwidth r)
  /\ ry r <= y /\ (if rheight r =? 0 then y <= rheight full else y < ry r + rheight r).
Proof. exact extend_spec. Qed.
Print Assumptions c16_extend.

Example c16_example : intersection Debug (mkRect 3 4 10 10) (mkRect 5 1 100 6) = Val (mkRect 5 4 8 3)
  /\ rect_contains Debug (mkRect 3 4 10 10) (mkRect 5 4 8 3) = Val true
  /\ extend_width_height (mkRect 5 1 0 0) (mkRect 1 1 50 24) = mkRect 5 1 46 24.
Proof. repeat split. Qed.
