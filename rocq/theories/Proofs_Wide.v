(** Proofs for C16 and C21 in release builds: edges and widths over 16 bits. *)

From Coq Require Import String.
From Verif Require Import Base Str Multi Color Raster Font Spec_Color Spec_Font Spec_Wide Proofs_Str Proofs_Color Proofs_Font.
From Coq Require Import ZifyBool ZifyNat.
Ltac Zify.zify_post_hook ::= Z.div_mod_to_equations.
Open Scope list_scope.

Lemma chk_release b v : 0 < b -> chk Release b v = Val (v mod b).
Proof.
  intros Hb. unfold chk. destruct ((0 <=? v) && (v <? b)) eqn:E; auto. rewrite Z.mod_small by lia. reflexivity.
Qed.

Lemma width_wraps f sp text cs : Spells f text cs -> 0 <= sp -> Forall (fun c => 0 <= c) (map c_width cs) ->
  forall rest w, 0 <= w ->
  (forall a b, cs = a ++ b -> b <> [] -> fold_left (add_width sp) (map c_width a) w mod 65536 = 0 ->
     fold_left (add_width sp) (map c_width a) w = 0) ->
  text_width_loop Release f sp (text ++ rest) (w mod 65536)
  = text_width_loop Release f sp rest (fold_left (add_width sp) (map c_width cs) w mod 65536).
Proof.
  intros H Hs. induction H as [|ch c text cs Hc H IH]; intros Hw rest w Pw HP; [reflexivity|].
  cbn [map] in Hw. apply Forall_cons_iff in Hw as [Hw1 Hw]. cbn [map fold_left app text_width_loop].
  rewrite (proj2 (character_spec f ch c) Hc).
  assert (Hz : w mod 65536 = 0 -> w = 0) by (apply (HP [] (c :: cs)); [reflexivity|discriminate]).
  assert (P1 : 0 <= add_width sp w (c_width c)) by (unfold add_width; destruct (0 <? w) eqn:E; lia).
  rewrite <- IH; auto.
  - f_equal. unfold add_width. destruct (Z.ltb_spec 0 w) as [L|L].
    + assert (0 <? w mod 65536 = true) as -> by lia. unfold chk16. rewrite chk_release by lia. cbn [bind].
      rewrite chk_release by lia. cbn [bind]. f_equal. rewrite Z.add_mod_idemp_l by lia.
      rewrite <- Z.add_assoc, Z.add_mod_idemp_l by lia. f_equal. lia.
    + assert (w = 0) as -> by lia. cbn [Z.modulo]. rewrite Zmod_0_l. cbn [Z.ltb Z.compare bind]. unfold chk16.
      rewrite chk_release by lia. reflexivity.
  - intros a b E Hb. apply (HP (c :: a) b); auto. now rewrite E.
Qed.

Lemma no_restart_fold sp cs : 0 <= sp -> Forall (fun c => 0 <= c) (map c_width cs) -> NoRestart sp (map c_width cs) ->
  forall a b, cs = a ++ b -> b <> [] -> fold_left (add_width sp) (map c_width a) 0 mod 65536 = 0 ->
    fold_left (add_width sp) (map c_width a) 0 = 0.
Proof.
  intros Hs HW HN a b -> Hb. rewrite map_app in *. apply Forall_app in HW as [HW _].
  rewrite line_width_fold by auto. apply (HN (map c_width a) (map c_width b)); auto. now destruct b.
Qed.

Lemma width_release f text o cs : Forall char_fields (f_characters f) -> 0 <= spacing_of f o -> Spells f text cs ->
  NoRestart (spacing_of f o) (map c_width cs) ->
  text_width Release f text o = Val (Ok (line_width (spacing_of f o) (map c_width cs) mod 65536)).
Proof.
  intros Hf Hs H HN. pose proof (widths_nonneg _ _ _ Hf H) as W. unfold text_width. fold (spacing_of f o).
  rewrite <- (app_nil_r text). change 0 with (0 mod 65536).
  rewrite (width_wraps f _ text cs) by (eauto using no_restart_fold; lia). cbn [text_width_loop].
  now rewrite line_width_fold.
Qed.

Lemma width_restart f pre post o cs : Forall char_fields (f_characters f) -> 0 <= spacing_of f o -> Spells f pre cs ->
  NoRestart (spacing_of f o) (map c_width cs) -> line_width (spacing_of f o) (map c_width cs) mod 65536 = 0 ->
  text_width Release f (pre ++ post) o = text_width Release f post o.
Proof.
  intros Hf Hs H HN H0. pose proof (widths_nonneg _ _ _ Hf H) as W. unfold text_width. fold (spacing_of f o).
  change 0 with (0 mod 65536) at 1.
  rewrite (width_wraps f _ pre cs) by (eauto using no_restart_fold; lia).
  now rewrite line_width_fold, H0 by auto.
Qed.

Lemma width_missing_release f text o cs ch : FirstMissing f text cs ch ->
  text_width Release f text o = Val (Err (FInvalidChar ch)).
Proof.
  intros (pre & post & -> & H & N). unfold text_width. generalize (match o with Some c => c | None => f_char_spacing f end) as sp.
  apply character_none in N. intros sp. generalize 0 as w.
  induction H as [|c e pre cs Hc H IH]; intros w; cbn [app text_width_loop].
  - now rewrite N.
  - rewrite (proj2 (character_spec f c e) Hc). unfold chk16.
    destruct (0 <? w); cbn [bind]; repeat (rewrite chk_release by lia; cbn [bind]); apply IH.
Qed.

(** ** Rectangles *)

Lemma chk16_edge md a b v : 0 <= a -> 0 <= b -> chk16 md (a + b) = Val v -> 0 <= v <= a + b.
Proof.
  unfold chk16, chk. intros Ha Hb. destruct ((0 <=? a + b) && (a + b <? 65536)) eqn:E; intros H.
  - injection H as <-. lia.
  - destruct md; [discriminate H|]. injection H as <-. lia.
Qed.

Lemma intersection_sound md a b r : u16_rect a -> u16_rect b -> intersection md a b = Val r ->
  forall x y, InRect r x y -> InRect a x y /\ InRect b x y.
Proof.
  unfold u16_rect, u16. intros (A1 & A2 & A3 & A4) (B1 & B2 & B3 & B4). unfold intersection.
  destruct (chk16 md (rx a + rwidth a)) as [ar| |] eqn:E1; try discriminate. cbn [bind].
  destruct (chk16 md (rx b + rwidth b)) as [br| |] eqn:E2; try discriminate. cbn [bind].
  destruct (chk16 md (ry a + rheight a)) as [ab| |] eqn:E3; try discriminate. cbn [bind].
  destruct (chk16 md (ry b + rheight b)) as [bb| |] eqn:E4; try discriminate. cbn [bind].
  apply chk16_edge in E1, E2, E3, E4; try lia.
  destruct ((Z.max (rx a) (rx b) <? Z.min ar br) && (Z.max (ry a) (ry b) <? Z.min ab bb)) eqn:E.
  - unfold chk16. rewrite !chk_in by lia. cbn [bind]. intros H x y. injection H as <-.
    unfold InRect. cbn [rx ry rwidth rheight]. lia.
  - intros H x y. injection H as <-. unfold InRect, rect_default. cbn [rx ry rwidth rheight]. lia.
Qed.

Lemma intersection_release a b : exists r, intersection Release a b = Val r.
Proof.
  unfold intersection, chk16. repeat (rewrite chk_release by lia; cbn [bind]).
  destruct (_ && _); [|eauto]. repeat (rewrite chk_release by lia; cbn [bind]). eauto.
Qed.
