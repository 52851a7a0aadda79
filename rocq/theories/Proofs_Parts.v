(** Proofs for C84. *)

From Coq Require Import ZifyBool ZifyNat Lia.
From Verif Require Import Base Str Raster Font Spec_Font Spec_Parts Proofs_Str Proofs_Color Proofs_Font Proofs_Glyph Proofs_Pages.
Open Scope list_scope.

Lemma width_app md f sp b : forall a w,
  text_width_loop md f sp (a ++ b) w = let? v := text_width_loop md f sp a w in text_width_loop md f sp b v.
Proof.
  induction a as [|ch a IH]; intros w; [reflexivity|]. cbn [app text_width_loop].
  destruct (character f ch) as [c|]; [|reflexivity].
  destruct (if 0 <? w then chk16 md (w + sp) else Val w) as [v| |]; cbn [bind]; auto.
  destruct (chk16 md (v + c_width c)) as [u| |]; cbn [bind]; auto.
Qed.

Definition next_at (sp w : Z) : Z := if 0 <? w then w + sp else w.

Lemma debug16 v u : chk16 Debug v = Val u -> u = v /\ 0 <= v < 65536.
Proof. unfold chk16, chk. destruct (_ && _) eqn:E; [|discriminate]. intros [= <-]. lia. Qed.

Lemma width_step f sp ch r w u : 0 <= sp -> 0 <= w < 65536 -> text_width_loop Debug f sp (ch :: r) w = Val (Ok u) ->
  exists c, character f ch = Some c /\ 0 <= next_at sp w < 65536 /\ 0 <= next_at sp w + c_width c < 65536
    /\ text_width_loop Debug f sp r (next_at sp w + c_width c) = Val (Ok u).
Proof.
  intros HS HW H. cbn [text_width_loop] in H. destruct (character f ch) as [c|]; [|discriminate H]. exists c. split; auto.
  unfold next_at. destruct (0 <? w).
  - apply bind_val in H as (v & A & H). apply debug16 in A as [-> A].
    apply bind_val in H as (v & B & H). apply debug16 in B as [-> B]. auto.
  - cbn [bind] in H. apply bind_val in H as (v & B & H). apply debug16 in B as [-> B]. auto.
Qed.

Lemma width_back md f sp ch r w c : 0 <= sp -> 0 <= w -> character f ch = Some c -> next_at sp w < 65536 ->
  0 <= next_at sp w + c_width c < 65536 ->
  text_width_loop md f sp (ch :: r) w = text_width_loop md f sp r (next_at sp w + c_width c).
Proof.
  intros HS HW C H1 H2. cbn [text_width_loop]. rewrite C. unfold next_at in *.
  destruct (0 <? w); [rewrite chk16_in by lia|]; cbn [bind]; rewrite chk16_in by lia; reflexivity.
Qed.

Lemma width_modes md f sp : 0 <= sp -> forall t w u, 0 <= w < 65536 -> text_width_loop Debug f sp t w = Val (Ok u) ->
  text_width_loop md f sp t w = Val (Ok u).
Proof.
  intros HS. induction t as [|ch t IH]; intros w u HW H; [exact H|].
  destruct (width_step _ _ _ _ _ _ HS HW H) as (c & C & N & M & K).
  rewrite (width_back md f sp ch t w c) by (auto; lia). apply IH; auto.
Qed.

Lemma draw_back md f page x y sp cf ch r w c : 0 <= sp -> 0 <= w -> character f ch = Some c -> next_at sp w < 65536 ->
  0 <= next_at sp w + c_width c < 65536 ->
  render_text_loop md f page (ch :: r) x y sp cf w
  = let! px := chk_i32 md (x + next_at sp w) in
    let! page := render_char md c page px y (f_height f) cf in
    render_text_loop md f page r x y sp cf (next_at sp w + c_width c).
Proof.
  intros HS HW C H1 H2. cbn [render_text_loop]. rewrite C. unfold next_at in *.
  destruct (0 <? w); [rewrite (chk_i32_in md (w + sp)) by lia|]; cbn [bind];
    (destruct (chk_i32 md (x + _)); cbn [bind]; auto; destruct (render_char _ _ _ _ _ _ _); cbn [bind]; auto;
     rewrite chk_i32_in by lia; reflexivity).
Qed.

Lemma draw_app md f x y sp cf b : 0 <= sp -> forall a page w xx, 0 <= xx < 65536 ->
  text_width_loop Debug f sp a xx = Val (Ok w) ->
  render_text_loop md f page (a ++ b) x y sp cf xx
  = let? m := render_text_loop md f page a x y sp cf xx in render_text_loop md f m b x y sp cf w.
Proof.
  intros HS. induction a as [|ch a IH]; intros page w xx HX H.
  - cbn [text_width_loop] in H. injection H as <-. reflexivity.
  - destruct (width_step _ _ _ _ _ _ HS HX H) as (c & C & N & M & K). cbn [app].
    rewrite !(draw_back md f page x y sp cf ch _ xx c) by (auto; lia).
    destruct (chk_i32 md (x + _)); cbn [bind]; auto. destruct (render_char _ _ _ _ _ _ _); cbn [bind]; auto.
Qed.

Section Shift.
Variables (f : Font) (sp : Z).
Hypothesis HF : Forall char_fields (f_characters f).
Hypothesis HS : 0 <= sp.

Lemma char_width ch c : character f ch = Some c -> 0 <= c_width c.
Proof.
  intros C. apply character_spec in C. apply HasChar_In in C. rewrite Forall_forall in HF. destruct (HF c C) as (_ & W & _).
  unfold u8 in W. lia.
Qed.

Lemma width_grows : forall t w u, 0 <= w < 65536 -> text_width_loop Debug f sp t w = Val (Ok u) -> w <= u < 65536.
Proof.
  induction t as [|ch t IH]; intros w u HW H; [cbn in H; injection H as <-; lia|].
  destruct (width_step _ _ _ _ _ _ HS HW H) as (c & C & N & M & K). apply IH in K; auto.
  pose proof (char_width ch c C). unfold next_at in *. destruct (0 <? w); lia.
Qed.

Lemma width_less k : 0 <= k -> forall t w u, 0 < w -> w + k < 65536 -> text_width_loop Debug f sp t (w + k) = Val (Ok u) ->
  text_width_loop Debug f sp t w = Val (Ok (u - k)).
Proof.
  intros HK. induction t as [|ch t IH]; intros w u HW HB H; [cbn in *; injection H as <-; do 2 f_equal; lia|].
  assert (B : 0 <= w + k < 65536) by lia.
  destruct (width_step _ _ _ _ _ _ HS B H) as (c & C & N & M & K). pose proof (char_width ch c C) as CW.
  assert (E : next_at sp (w + k) = next_at sp w + k) by (unfold next_at; destruct (0 <? w) eqn:E1, (0 <? w + k) eqn:E2; lia).
  assert (P : w <= next_at sp w) by (unfold next_at; destruct (0 <? w); lia).
  rewrite (width_back Debug f sp ch t w c) by (auto; lia).
  apply IH; try lia. rewrite <- K. f_equal. lia.
Qed.

Lemma width_more k : 0 <= k -> forall t w u, 0 < w < 65536 -> u + k < 65536 -> text_width_loop Debug f sp t w = Val (Ok u) ->
  text_width_loop Debug f sp t (w + k) = Val (Ok (u + k)).
Proof.
  intros HK. induction t as [|ch t IH]; intros w u HW HB H; [cbn in *; now injection H as <-|].
  assert (B : 0 <= w < 65536) by lia.
  destruct (width_step _ _ _ _ _ _ HS B H) as (c & C & N & M & K). pose proof (char_width ch c C) as CW.
  pose proof (width_grows _ _ _ M K) as G.
  assert (E : next_at sp (w + k) = next_at sp w + k) by (unfold next_at; destruct (0 <? w) eqn:E1, (0 <? w + k) eqn:E2; lia).
  assert (P : w <= next_at sp w) by (unfold next_at; destruct (0 <? w); lia).
  rewrite (width_back Debug f sp ch t (w + k) c) by (auto; lia).
  rewrite E. replace (next_at sp w + k + c_width c) with (next_at sp w + c_width c + k) by lia. apply IH; auto. lia.
Qed.

Lemma draw_shift md x y cf k : 0 <= k -> forall t page w u, 0 < w -> w + k < 65536 ->
  text_width_loop Debug f sp t (w + k) = Val (Ok u) ->
  render_text_loop md f page t x y sp cf (w + k) = render_text_loop md f page t (x + k) y sp cf w.
Proof.
  intros HK. induction t as [|ch t IH]; intros page w u HW HB H; [reflexivity|].
  assert (B : 0 <= w + k < 65536) by lia.
  destruct (width_step _ _ _ _ _ _ HS B H) as (c & C & N & M & K). pose proof (char_width ch c C) as CW.
  assert (E : next_at sp (w + k) = next_at sp w + k) by (unfold next_at; destruct (0 <? w) eqn:E1, (0 <? w + k) eqn:E2; lia).
  assert (P : w <= next_at sp w) by (unfold next_at; destruct (0 <? w); lia).
  rewrite !(draw_back md f page _ y sp cf ch t _ c) by (auto; lia).
  rewrite E in *. replace (x + (next_at sp w + k)) with (x + k + next_at sp w) by lia.
  replace (next_at sp w + k + c_width c) with (next_at sp w + c_width c + k) in * by lia.
  destruct (chk_i32 md (x + k + next_at sp w)); cbn [bind]; auto. destruct (render_char _ _ _ _ _ _ _); cbn [bind]; auto.
  apply (IH _ _ u); auto; lia.
Qed.
End Shift.

Lemma width_parts md f a b o w : Forall char_fields (f_characters f) -> 0 <= spacing_of f o ->
  text_width Debug f (a ++ b) o = Val (Ok w) ->
  exists wa, text_width md f a o = Val (Ok wa)
    /\ (wa = 0 -> text_width md f b o = Val (Ok w))
    /\ (0 < wa -> StartsWide f b -> exists wb, text_width md f b o = Val (Ok wb) /\ w = wa + spacing_of f o + wb).
Proof.
  intros HF HS H. unfold text_width in *. fold (spacing_of f o) in *. set (sp := spacing_of f o) in *.
  rewrite width_app in H. apply try_ok in H as (wa & A & B).
  exists wa. split; [apply width_modes; auto; lia|]. split.
  - intros ->. apply width_modes; auto; lia.
  - intros P (ch & r & c & -> & C & W). apply character_spec in C.
    assert (R : 0 <= wa < 65536) by (apply (width_grows f sp HF HS) in A; lia).
    destruct (width_step _ _ _ _ _ _ HS R B) as (c' & C' & N & M & K). rewrite C in C'. injection C' as <-.
    assert (E : next_at sp wa = wa + sp) by (unfold next_at; destruct (0 <? wa) eqn:X; lia).
    rewrite E in *. exists (w - (wa + sp)). split; [|lia]. apply width_modes; auto; [lia|].
    rewrite (width_back Debug f sp ch r 0 c) by (auto; cbn; lia). change (next_at sp 0) with 0.
    apply (width_less f sp HF HS (wa + sp)); try lia. rewrite <- K. f_equal. lia.
Qed.

Lemma width_joined md f a b o wa wb : Forall char_fields (f_characters f) -> 0 <= spacing_of f o ->
  text_width Debug f a o = Val (Ok wa) -> text_width Debug f b o = Val (Ok wb) ->
  (wa = 0 -> text_width md f (a ++ b) o = Val (Ok wb))
  /\ (0 < wa -> StartsWide f b -> wa + spacing_of f o + wb < 65536 ->
      text_width md f (a ++ b) o = Val (Ok (wa + spacing_of f o + wb))).
Proof.
  intros HF HS A B. unfold text_width in *. fold (spacing_of f o) in *. set (sp := spacing_of f o) in *.
  split.
  - intros ->. apply width_modes; auto; [lia|]. rewrite width_app, A. exact B.
  - intros P (ch & r & c & -> & C & W) L. apply character_spec in C. apply width_modes; auto; [lia|].
    rewrite width_app, A. change (text_width_loop Debug f sp (ch :: r) wa = Val (Ok (wa + sp + wb))).
    assert (Z0 : 0 <= 0 < 65536) by lia.
    destruct (width_step _ _ _ _ _ _ HS Z0 B) as (c' & C' & N & M & K). rewrite C in C'. injection C' as <-.
    change (next_at sp 0) with 0 in *. pose proof (width_grows f sp HF HS _ _ _ M K) as G.
    assert (E : next_at sp wa = wa + sp) by (unfold next_at; destruct (0 <? wa) eqn:X; lia).
    rewrite (width_back Debug f sp ch r wa c) by (auto; lia). rewrite E.
    replace (wa + sp + c_width c) with (0 + c_width c + (wa + sp)) by lia. replace (wa + sp + wb) with (wb + (wa + sp)) by lia.
    apply (width_more f sp HF HS (wa + sp)); auto; lia.
Qed.

Lemma draw_parts md f page a b x y sp cf w : Forall char_fields (f_characters f) -> 0 <= sp ->
  text_width Debug f (a ++ b) (Some sp) = Val (Ok w) ->
  exists wa, text_width md f a (Some sp) = Val (Ok wa)
    /\ (wa = 0 -> font_render_text md f page (a ++ b) x y sp cf
                  = let? m := font_render_text md f page a x y sp cf in font_render_text md f m b x y sp cf)
    /\ (0 < wa -> StartsWide f b -> font_render_text md f page (a ++ b) x y sp cf
          = let? m := font_render_text md f page a x y sp cf in font_render_text md f m b (x + wa + sp) y sp cf).
Proof.
  intros HF HS H. unfold text_width in *. rewrite width_app in H. apply try_ok in H as (wa & A & B).
  exists wa. split; [apply width_modes; auto; lia|]. unfold font_render_text.
  rewrite (draw_app md f x y sp cf b HS a page wa 0) by (auto; lia). split.
  - intros ->. reflexivity.
  - intros P (ch & r & c & -> & C & W). apply character_spec in C.
    assert (R : 0 <= wa < 65536) by (apply (width_grows f sp HF HS) in A; lia).
    destruct (width_step _ _ _ _ _ _ HS R B) as (c' & C' & N & M & K). rewrite C in C'. injection C' as <-.
    assert (E : next_at sp wa = wa + sp) by (unfold next_at; destruct (0 <? wa) eqn:X; lia).
    rewrite E in *. destruct (render_text_loop md f page a x y sp cf 0) as [[m|e]| |]; cbn [try bind]; auto.
    rewrite (draw_back md f m x y sp cf ch r wa c), (draw_back md f m (x + wa + sp) y sp cf ch r 0 c) by (auto; try rewrite E; cbn; lia).
    rewrite E. change (next_at sp 0) with 0. replace (x + (wa + sp)) with (x + wa + sp + 0) by lia.
    destruct (chk_i32 md (x + wa + sp + 0)); cbn [bind]; auto. destruct (render_char _ _ _ _ _ _ _); cbn [try bind]; auto.
    replace (wa + sp + c_width c) with (0 + c_width c + (wa + sp)) in * by lia.
    rewrite (draw_shift f sp HF HS md x y cf (wa + sp)) with (u := w) by (auto; lia). f_equal. lia.
Qed.

Lemma width_error md f a b o e : text_width md f a o = Val (Err e) -> text_width md f (a ++ b) o = Val (Err e).
Proof. unfold text_width. intros H. rewrite width_app, H. reflexivity. Qed.
