(** Default signs. *)

From Coq Require Import String ZifyBool ZifyNat.
From Verif Require Import Base Str Multi Color Font Graphic Config Sign Proofs_Str.
Open Scope list_scope.

Lemma default_fonts C F : font_table_validate (font_table_default C F) = Val (Ok tt).
Proof.
  unfold font_table_validate, font_table_default.
  assert (A : validate_fonts (repeat (font_default C) F) = Val (Ok tt)) by (induction F; auto).
  rewrite A. cbn [bind]. f_equal. clear A. induction F as [|F IH]; [reflexivity|]. exact IH.
Qed.

Lemma default_retain w h G : 0 <= w -> 0 <= h ->
  graphic_retain (graphic_table_default G) w h = graphic_table_default G.
Proof.
  intros Hw Hh. unfold graphic_retain, graphic_table_default. induction G as [|G IH]; [reflexivity|].
  cbn [repeat map]. rewrite IH. f_equal. now destruct (_ : bool).
Qed.

Lemma default_graphics G w h : graphic_table_validate (graphic_table_default G) w h = Ok tt.
Proof.
  unfold graphic_table_validate, graphic_table_default.
  assert (A : validate_graphics (repeat graphic_default G) w h = Ok tt) by (induction G; auto).
  rewrite A. clear A. induction G as [|G IH]; [reflexivity|]. exact IH.
Qed.

Lemma default_builds md C F G : build md (builder_default C F G)
  = Val (Ok (mkDms sign_cfg_default vms_cfg_default (font_table_default C F) multi_cfg_default (graphic_table_default G))).
Proof.
  unfold build, builder_default. cbn [b_sign_cfg b_vms_cfg b_fonts b_multi_cfg b_graphics].
  replace (sign_cfg_validate md sign_cfg_default vms_cfg_default) with (Val (@Ok unit CfgError tt)) by (destruct md; reflexivity).
  cbn [bind lift_err]. replace (multi_cfg_validate multi_cfg_default) with (@Ok unit CfgError tt) by reflexivity.
  cbn [bind lift_err]. rewrite default_fonts. cbn [bind lift_err].
  rewrite default_retain, default_graphics by (cbn; lia). reflexivity.
Qed.

Lemma classic_codes :
  (forall c, classic_from_u8 (classic_to_u8 c) = Some c)
  /\ (forall v c, classic_from_u8 v = Some c -> classic_to_u8 c = v)
  /\ (forall v, (exists c, classic_from_u8 v = Some c) <-> 0 <= v <= 9)
  /\ map classic_from_u8 [0; 1; 2; 3; 4; 5; 6; 7; 8; 9]
     = map Some [Black; Red; Yellow; Green; Cyan; Blue; Magenta; White; Orange; Amber].
Proof.
  assert (A : forall v c, classic_from_u8 v = Some c -> classic_to_u8 c = v).
  { intros v c. unfold classic_from_u8.
    repeat match goal with |- context [v =? ?n] => destruct (Z.eqb_spec v n) as [->|]; [intros E; injection E as <-; reflexivity|] end.
    discriminate. }
  split; [now intros []|]. split; [exact A|]. split; [|reflexivity]. intros v. split.
  - intros (c & H). apply A in H. subst v. destruct c; cbn; lia.
  - intros H. assert (B : In v [0; 1; 2; 3; 4; 5; 6; 7; 8; 9]) by (cbn; lia).
    cbn in B. repeat destruct B as [<-|B]; try destruct B; eexists; reflexivity.
Qed.

Lemma scheme_names : forall s,
  (scheme_from_str s = Monochrome8Bit <-> s = lit "monochrome8Bit")
  /\ (scheme_from_str s = ColorClassicScheme <-> s = lit "colorClassic")
  /\ (scheme_from_str s = Color24Bit <-> s = lit "color24Bit")
  /\ (scheme_from_str s = Monochrome1Bit
      <-> s = lit "monochrome1Bit" \/ ~ In s [lit "monochrome8Bit"; lit "colorClassic"; lit "color24Bit"]).
Proof.
  assert (X : forall t : str, str_eqb t t = true) by (intros; now apply str_eqb_iff).
  assert (Y : forall a b : str, str_eqb a b = false -> a <> b) by (intros a b H ->; rewrite X in H; discriminate).
  intros s. unfold scheme_from_str.
  destruct (str_eqb s (lit "monochrome1Bit")) eqn:A; [apply str_eqb_iff in A; subst s|].
  { splits; try (split; discriminate). split; auto. }
  destruct (str_eqb s (lit "monochrome8Bit")) eqn:B; [apply str_eqb_iff in B; subst s|].
  { splits; try (split; auto; discriminate). split; [discriminate|]. intros [H|H]; [discriminate H|]. exfalso. apply H. now left. }
  destruct (str_eqb s (lit "colorClassic")) eqn:C; [apply str_eqb_iff in C; subst s|].
  { splits; try (split; auto; discriminate). split; [discriminate|]. intros [H|H]; [discriminate H|]. exfalso. apply H. cbn. auto. }
  destruct (str_eqb s (lit "color24Bit")) eqn:D; [apply str_eqb_iff in D; subst s|].
  { splits; try (split; auto; discriminate). split; [discriminate|]. intros [H|H]; [discriminate H|]. exfalso. apply H. cbn. auto. }
  apply Y in A, B, C, D. splits; try (split; [discriminate|contradiction]). split; auto. intros _. right.
  intros [H|[H|[H|[]]]]; congruence.
Qed.
