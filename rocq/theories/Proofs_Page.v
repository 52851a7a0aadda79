(** Pages of messages: settings, graphics and text. *)

From Coq Require Import String ZifyBool ZifyNat.
From Verif Require Import Base Str Multi Color Raster Font Graphic Config Sign Render
  Spec_Multi Spec_Color Spec_Font Spec_Tfon Spec_Graphic Spec_Sign Spec_Render Spec_Layout Spec_Draw Spec_Page
  Proofs_Str Proofs_Font Proofs_Glyph Proofs_Iter Proofs_Color Proofs_Sign Proofs_Machine Proofs_Pages Proofs_Count Proofs_Render Proofs_Norm
  Proofs_Build Proofs_Horiz Proofs_Vert Proofs_Layout Proofs_Place Proofs_Draw Proofs_Each.
Open Scope list_scope.
Ltac Zify.zify_post_hook ::= Z.div_mod_to_equations.

(** ** Settings *)

Lemma in_force_snoc {A} (f : Value -> option A) x a v :
  in_force f x (a ++ [v]) = match f v with Some y => y | None => in_force f x a end.
Proof. now rewrite in_force_app. Qed.

Lemma line_at_snoc d : forall vs past n v,
  line_at d past n (vs ++ [v]) =
  match v with VNewLine _ => line_at d past n vs + 1
  | _ => if changes_jp d (past ++ vs) v then 0 else line_at d past n vs end.
Proof.
  induction vs as [|w vs IH]; intros past n v.
  - cbn. now rewrite app_nil_r.
  - cbn [app line_at]. rewrite IH. rewrite <- app_assoc. reflexivity.
Qed.

Lemma text_at_snoc d : forall vs past n v,
  text_at d past n (vs ++ [v]) =
  match v with
  | VText _ | VHexadecimalCharacter _ => text_at d past n vs + 1
  | VNewLine _ | VJustificationLine _ => 0
  | _ => if changes_jp d (past ++ vs) v then 0 else text_at d past n vs
  end.
Proof.
  induction vs as [|w vs IH]; intros past n v.
  - cbn. now rewrite app_nil_r.
  - cbn [app text_at]. rewrite IH. rewrite <- app_assoc. reflexivity.
Qed.

Lemma jp_eqb_eq a b : jp_eqb a b = true <-> a = b.
Proof. destruct a, b; cbn; split; intros; congruence || discriminate || reflexivity. Qed.

(** One more value. *)
Lemma setting_snoc d c vs v : setting d c (vs ++ [v]) =
  let st := setting d c vs in
  mkRS (colors d (or_else (says_fg d v) (fg_current (rs_ctx st))) (bg_current (rs_ctx st)))
    (rs_on_time st) (rs_off_time st) (rs_rect st)
    (or_else (says_jp d v) (rs_jp st)) (or_else (says_jl d v) (rs_jl st))
    (fst (or_else (says_font d v) (rs_font st, rs_font_vid st)))
    (snd (or_else (says_font d v) (rs_font st, rs_font_vid st)))
    (or_else (says_lead v) (rs_line_spacing st)) (or_else (says_spacing v) (rs_char_spacing st))
    (match v with VNewLine _ => rs_line st + 1
     | _ => if changes_jp d ((pl_earlier c ++ pl_upto c) ++ vs) v then 0 else rs_line st end)
    (match v with
     | VText _ | VHexadecimalCharacter _ => rs_span st + 1
     | VNewLine _ | VJustificationLine _ => 0
     | _ => if changes_jp d ((pl_earlier c ++ pl_upto c) ++ vs) v then 0 else rs_span st
     end).
Proof.
  unfold setting, page_colors. cbv zeta. cbn [rs_ctx rs_on_time rs_off_time rs_rect rs_jp rs_jl rs_font rs_font_vid
    rs_line_spacing rs_char_spacing rs_line rs_span colors fg_current bg_current].
  unfold fg_of, jp_of, jl_of, font_of. rewrite !app_assoc. rewrite !in_force_snoc, line_at_snoc, text_at_snoc.
  f_equal; try (destruct v; reflexivity).
Qed.

Definition counts_ok (st : RenderState) : Prop := u8 (rs_line st) /\ u8 (rs_span st).

Lemma chk8_debug n k : chk8 Debug n = Val k -> k = n /\ u8 n.
Proof.
  unfold chk8, chk. destruct (_ && _) eqn:E; [|discriminate]. intros [= <-]. unfold u8. split; [reflexivity|lia].
Qed.

Lemma rtr_step d c po v xs vs spans e :
  a_rtr Debug d (rs_new d) po (Val (Ok v) :: xs) (setting d c vs) spans (blank_line vs) = Val e ->
  a_res e = Ok tt -> inner v ->
  a_rtr Debug d (rs_new d) po xs (setting d c (vs ++ [v])) (spans ++ texts d c vs [v]) (blank_line (vs ++ [v])) = Val e
  /\ (counts_ok (setting d c vs) -> counts_ok (setting d c (vs ++ [v])))
  /\ (forall h, v = VHexadecimalCharacter h -> is_charb h = true).
Proof.
  intros H HR HI. cbn [a_rtr bind] in H.
  assert (HB : forall rs st r sp er, Val (mkA rs st r sp (Err er)) <> Val e) by (intros rs st r sp er E; injection E as <-; discriminate HR).
  pose proof (setting_snoc d c vs v) as ES. cbv zeta in ES.
  assert (EB : blank_line (vs ++ [v]) = match v with VText _ | VHexadecimalCharacter _ => false | VNewLine _ => true | _ => blank_line vs end).
  { unfold blank_line. rewrite in_force_snoc. destruct v; reflexivity. }
  rewrite EB, ES. clear EB ES.
  assert (EC : rs_ctx (setting d c vs) = colors d (fg_current (rs_ctx (setting d c vs))) (bg_current (rs_ctx (setting d c vs)))) by reflexivity.
  assert (EP : rs_jp (setting d c vs) = jp_of d ((pl_earlier c ++ pl_upto c) ++ vs)) by reflexivity.
  unfold counts_ok. set (past := (pl_earlier c ++ pl_upto c) ++ vs) in *.
  destruct (setting d c vs) as [ctx on off rect jp jl fo vid lead cs ln sn] eqn:EST.
  cbn [rs_ctx rs_on_time rs_off_time rs_rect rs_jp rs_jl rs_font rs_font_vid rs_line_spacing rs_char_spacing rs_line rs_span] in *.
  destruct v; try contradiction;
    cbn [says_fg says_jp says_jl says_font says_lead says_spacing or_else changes_jp fst snd texts app] in *;
    rewrite <- ?EC, ?app_nil_r; try (splits; [exact H|tauto|intros h E; discriminate E]).
  - (* cf *)
    unfold set_foreground in H. rewrite EC in H. destruct c0 as [c0|].
    + destruct (ctx_rgb _ c0); [|now apply HB in H].
      splits; [exact H|tauto|intros h E; discriminate E].
    + splits; [exact H|tauto|intros h E; discriminate E].
  - (* fo *)
    destruct f as [[n k]|]; (splits; [exact H|tauto|intros h E; discriminate E]).
  - (* hc *)
    destruct (is_charb c0) eqn:EH; [|now apply HB in H].
    cbn [rs_span] in H. destruct (chk8 Debug (sn + 1)) as [k| |] eqn:EK; cbn [bind] in H; try discriminate H.
    destruct (chk8_debug _ _ EK) as [-> U]. splits.
    + rewrite EST. exact H.
    + tauto.
    + intros h E. injection E as <-. exact EH.
  - (* jl *)
    destruct j as [[]|]; try (now apply HB in H); (splits; [exact H|unfold u8; lia|intros h E; discriminate E]).
  - (* jp *)
    assert (HJ : forall j', (if negb (jp_eqb j' jp)
        then a_rtr Debug d (rs_new d) po xs (set_span (set_line (set_jp (mkRS ctx on off rect jp jl fo vid lead cs ln sn) j') 0) 0) spans (blank_line vs)
        else a_rtr Debug d (rs_new d) po xs (mkRS ctx on off rect jp jl fo vid lead cs ln sn) spans (blank_line vs)) = Val e ->
      a_rtr Debug d (rs_new d) po xs
        (mkRS ctx on off rect j' jl fo vid lead cs (if negb (jp_eqb j' (jp_of d past)) then 0 else ln)
           (if negb (jp_eqb j' (jp_of d past)) then 0 else sn)) spans (blank_line vs) = Val e).
    { intros j' H'. rewrite <- EP. destruct (jp_eqb j' jp) eqn:EJ; cbn [negb] in H' |- *.
      - apply jp_eqb_eq in EJ. subst j'. exact H'.
      - exact H'. }
    destruct j as [[]|]; try (now apply HB in H); cbn [or_else]; apply HJ in H;
      (splits; [exact H|destruct (negb _); unfold u8 in *; lia|intros h E; discriminate E]).
  - (* nl *)
    match type of H with (if ?b then _ else _) = _ => destruct b end; [now apply HB in H|].
    cbn [rs_line set_line_spacing] in H. destruct (chk8 Debug (ln + 1)) as [k| |] eqn:EK; cbn [bind] in H; try discriminate H.
    destruct (chk8_debug _ _ EK) as [-> U]. splits.
    + rewrite EST. destruct (blank_line vs); rewrite ?app_nil_r; exact H.
    + unfold u8 in *. lia.
    + intros h E. discriminate E.
  - (* sc *)
    destruct (_ && _); [now apply HB in H|]. splits; [exact H|tauto|intros h E; discriminate E].
  - (* text *)
    cbn [rs_span] in H. destruct (chk8 Debug (sn + 1)) as [k| |] eqn:EK; cbn [bind] in H; try discriminate H.
    destruct (chk8_debug _ _ EK) as [-> U]. splits.
    + rewrite EST. exact H.
    + tauto.
    + intros h E. discriminate E.
Qed.

Lemma texts_cons d c a v r : texts d c a (v :: r) = texts d c a [v] ++ texts d c (a ++ [v]) r.
Proof. cbn [texts]. now rewrite app_nil_r. Qed.

Lemma in_force_ok {A} (P : A -> Prop) (f : Value -> option A) vs : forall x, P x ->
  (forall v y, In v vs -> f v = Some y -> P y) -> P (in_force f x vs).
Proof.
  induction vs as [|v vs IH]; intros x Hx H; cbn; auto. apply IH.
  - destruct (f v) eqn:E; auto. apply (H v); [now left|exact E].
  - intros w y I E. apply (H w); [now right|exact E].
Qed.

(** The values of the message up to the end of the page. *)
Definition place_ok (c : Place) (vs : list Value) : Prop :=
  Forall value_ok (pl_earlier c) /\ Forall value_ok (pl_page c)
  /\ Forall value_ok (pl_upto c) /\ Forall value_ok vs.

Lemma place_ok_past c vs : place_ok c vs -> Forall value_ok ((pl_earlier c ++ pl_upto c) ++ vs).
Proof. intros (H1 & H2 & H3 & H4). rewrite !Forall_app. auto. Qed.

Lemma setting_fields d c vs st : place_ok c vs -> st = setting d c vs -> counts_ok st ->
  (forall n, rs_char_spacing st = Some n -> u8 n) /\ (forall n, rs_line_spacing st = Some n -> u8 n)
  /\ u8 (rs_line st) /\ u8 (rs_span st).
Proof.
  intros HP -> [C1 C2]. pose proof (place_ok_past _ _ HP) as HA. rewrite Forall_forall in HA. splits; auto.
  - cbn [setting rs_char_spacing]. intros n.
    apply (in_force_ok (fun o => o = Some n -> u8 n) says_spacing); [discriminate|].
    intros v y I E. specialize (HA v I). destruct v; try discriminate E; cbn in E; injection E as <-; intros E; try discriminate E.
    injection E as ->. cbn in HA. unfold u8. lia.
  - cbn [setting rs_line_spacing]. intros n.
    apply (in_force_ok (fun o => o = Some n -> u8 n) says_lead); [discriminate|].
    intros v y I E. assert (value_ok v) as HV.
    { destruct HP as (_ & _ & H3 & H4). rewrite Forall_forall in H3, H4. apply in_app_or in I as [I|I]; auto. }
    destruct v; try discriminate E; cbn in E. injection E as <-. intros ->. cbn in HV. unfold u8. lia.
Qed.

Lemma place_ok_snoc c a v r : place_ok c (a ++ v :: r) -> place_ok c a /\ value_ok v /\ place_ok c ((a ++ [v]) ++ r).
Proof.
  intros (H1 & H2 & H3 & H4). pose proof H4 as H4'. apply Forall_app in H4 as [H4 H5]. inversion H5; subst.
  unfold place_ok. splits; auto. rewrite <- app_assoc. exact H4'.
Qed.

Lemma texts_one_fields d c a v : place_ok c a -> value_ok v -> counts_ok (setting d c a) ->
  (forall h, v = VHexadecimalCharacter h -> is_charb h = true) -> Forall span_fields (texts d c a [v]).
Proof.
  intros HP HV HC HH. cbn [texts]. rewrite app_nil_r.
  destruct (setting_fields d c a _ HP eq_refl HC) as (F1 & F2 & F3 & F4).
  destruct v; try apply Forall_nil.
  - constructor; [|constructor]. unfold span_fields. splits; auto. destruct (Z.eq_dec c0 0) as [->|N].
    + exists []. split; [constructor|auto].
    + exists [c0]. split; [now constructor|]. intros [E|[]]. congruence.
  - destruct (blank_line a); [|constructor]. constructor; [|constructor]. unfold span_fields. splits; auto.
    exists []. split; [constructor|auto].
  - constructor; [|constructor]. unfold span_fields. splits; auto. exists t. split; [constructor|].
    destruct HV as [_ HV]. rewrite Forall_forall in HV. intros I. specialize (HV 0 I). unfold text_char in HV. lia.
Qed.

Lemma rtr_run d c po xs e ws : forall vs spans,
  a_rtr Debug d (rs_new d) po (okv ws ++ xs) (setting d c vs) spans (blank_line vs) = Val e ->
  a_res e = Ok tt -> Forall inner ws -> place_ok c (vs ++ ws) -> counts_ok (setting d c vs) ->
  a_rtr Debug d (rs_new d) po xs (setting d c (vs ++ ws)) (spans ++ texts d c vs ws) (blank_line (vs ++ ws)) = Val e
  /\ Forall span_fields (texts d c vs ws).
Proof.
  induction ws as [|v ws IH]; intros vs spans H HR HI HP HC.
  - cbn [texts]. rewrite !app_nil_r. split; [exact H|constructor].
  - cbn [okv map app] in H. inversion HI; subst. destruct (place_ok_snoc _ _ _ _ HP) as (HP1 & HV & HP2).
    apply rtr_step in H; auto. destruct H as (H & HC' & HH).
    apply IH in H; auto. destruct H as [H HS]. rewrite texts_cons.
    rewrite <- !app_assoc in H. cbn [app] in H. split; [exact H|]. apply Forall_app. split; auto.
    now apply texts_one_fields.
Qed.

(** ** Colours *)

Lemma rgb_classic_ok v x : rgb_classic v = Some x -> rgb_ok x.
Proof.
  unfold rgb_classic. destruct (classic_from_u8 v) as [c|]; [|discriminate]. intros [= <-].
  destruct c; cbn; unfold u8; lia.
Qed.

Lemma color_rgb_ok c : color_bytes c -> rgb_ok (color_rgb c).
Proof.
  destruct c as [v|r g b]; cbn; auto. intros _. destruct (rgb_classic v) eqn:E; [now apply rgb_classic_ok in E|].
  cbn. unfold u8. lia.
Qed.

Lemma defaults_ok d : Built d -> rgb_ok (foreground_default_rgb d) /\ rgb_ok (background_default_rgb d).
Proof.
  intros (md & b & Hb & H). destruct (build_same md b d H) as (_ & _ & E1 & E2).
  destruct Hb as (_ & (_ & _ & _ & _ & _ & _ & V1 & V2) & (M1 & M2 & _) & _).
  unfold foreground_default_rgb, background_default_rgb. rewrite ?E1, ?E2.
  destruct (cfg_color_scheme _); split; auto; now apply color_rgb_ok.
Qed.

Lemma color_of_rgb_bytes x : rgb_ok x -> color_bytes (color_of_rgb x).
Proof. destruct x as [[r g] b]. cbn. auto. Qed.

Lemma colors_bytes d fg bg : Built d -> color_bytes fg -> color_bytes bg -> ctx_bytes (colors d fg bg).
Proof. intros HB H1 H2. destruct (defaults_ok d HB). unfold ctx_bytes, ctx_ok. cbn. auto. Qed.

Lemma fg_bytes d vs : Built d -> Forall value_ok vs -> color_bytes (fg_of d vs).
Proof.
  intros HB HV. destruct (defaults_ok d HB) as [F B]. unfold fg_of. apply in_force_ok.
  - now apply color_of_rgb_bytes.
  - rewrite Forall_forall in HV. intros v y I E. specialize (HV v I). destruct v; try discriminate E. cbn in E. injection E as <-.
    destruct c; cbn in *; [exact HV|]. now apply color_of_rgb_bytes.
Qed.

Lemma bg_bytes d vs : Built d -> Forall value_ok vs -> color_bytes (bg_of d vs).
Proof.
  intros HB HV. destruct (defaults_ok d HB) as [F B]. unfold bg_of. apply in_force_ok.
  - now apply color_of_rgb_bytes.
  - rewrite Forall_forall in HV. intros v y I E. specialize (HV v I). destruct v; try discriminate E; cbn in E; injection E as <-;
      (destruct c; cbn in *; [exact HV|]; now apply color_of_rgb_bytes).
Qed.

Lemma graphic_colors_bytes d c vs : Built d -> place_ok c vs -> ctx_bytes (graphic_colors d c vs).
Proof.
  intros HB HP. apply colors_bytes; auto.
  - apply fg_bytes; auto. now apply place_ok_past.
  - destruct HP as (H1 & H2 & H3 & H4). destruct (defaults_ok d HB) as [F B]. apply in_force_ok.
    + apply bg_bytes; auto. now apply Forall_app.
    + rewrite Forall_forall in H4. intros v y I E. specialize (H4 v I). destruct v; try discriminate E; cbn in E; injection E as <-.
      destruct c0; cbn in *; [exact H4|]; now apply color_of_rgb_bytes.
Qed.

(** ** Rectangles *)

Lemma chk16_debug n k : chk16 Debug n = Val k -> k = n /\ u16 n.
Proof.
  unfold chk16, chk. destruct (_ && _) eqn:E; [|discriminate]. intros [= <-]. unfold u16. split; [reflexivity|lia].
Qed.

Lemma intersection_edges r f i : u16_rect r -> intersection Debug (extend_width_height r f) f = Val i -> edges_fit r.
Proof.
  intros (U1 & U2 & U3 & U4) H. unfold intersection in H.
  apply bind_val in H as (ar & A1 & H). apply bind_val in H as (br & _ & H).
  apply bind_val in H as (ab & A2 & H). apply chk16_debug in A1 as [_ A1]. apply chk16_debug in A2 as [_ A2].
  unfold extend_width_height, sat_sub in *. cbn [rx ry rwidth rheight] in *. unfold edges_fit, u16 in *.
  destruct (Z.ltb_spec 0 (rwidth r)), (Z.ltb_spec 0 (rheight r)); lia.
Qed.

Lemma intersection_sign e w h i : 0 <= w -> 0 <= h -> intersection Debug e (mkRect 1 1 w h) = Val i ->
  w < 65535 /\ h < 65535.
Proof.
  intros H1 H2 H. unfold intersection in H. cbn [rx ry rwidth rheight] in H.
  apply bind_val in H as (ar & _ & H). apply bind_val in H as (br & B1 & H).
  apply bind_val in H as (ab & _ & H). apply bind_val in H as (bb & B2 & H).
  apply chk16_debug in B1 as [_ B1]. apply chk16_debug in B2 as [_ B2]. unfold u16 in *. lia.
Qed.

Lemma rect_ok_u16 r : rect_ok r -> u16_rect r.
Proof. unfold rect_ok, u16_rect, u16. lia. Qed.

Lemma good_rect d r q : Built d -> rect_ok r -> update_text_rectangle Debug d (rs_new d) r = Val (Some q) ->
  GoodTextRect d r /\ q = rect_on (sign_width_pixels (d_vms_cfg d)) (sign_height_pixels (d_vms_cfg d)) r.
Proof.
  intros HB HR H. destruct (Built_parts d HB) as (_ & _ & (C1 & C2 & C3 & C4 & _)). unfold u8, u16 in *.
  assert (edges_fit r /\ sign_width_pixels (d_vms_cfg d) < 65535 /\ sign_height_pixels (d_vms_cfg d) < 65535) as (HE & Hw & Hh).
  { unfold update_text_rectangle in H. cbv zeta in H. apply bind_val in H as (i & E & _).
    split; [apply intersection_edges in E; auto; now apply rect_ok_u16|].
    apply intersection_sign in E; auto; lia. }
  destruct (text_rect_spec Debug d r) as (o & E & G1 & G2); unfold u16; try lia.
  - now apply rect_ok_u16.
  - unfold rect_ok in HR. lia.
  - unfold rect_ok in HR. lia.
  - unfold arith_ok. splits; auto; lia.
  - rewrite H in E. injection E as <-.
    assert (Dec : GoodTextRect d r \/ ~ GoodTextRect d r).
    { unfold GoodTextRect. cbv zeta.
      assert (forall s n, 0 <= s -> 0 <= n -> on_boundary s n \/ ~ on_boundary s n) as BD.
      { intros s n Hs Hn. rewrite <- (boundary_mod s n Hs Hn). destruct (_ =? _); auto. }
      set (e := rect_on _ _ r).
      assert (0 <= rx e - 1 /\ 0 <= ry e - 1 /\ 0 <= rwidth e /\ 0 <= rheight e) as (P1 & P2 & P3 & P4).
      { unfold e, rect_on, rect_ok, u16 in *. cbn [rx ry rwidth rheight]. destruct (_ =? _), (rheight r =? 0); lia. }
      pose proof (BD (char_width_pixels (d_vms_cfg d)) (rx e - 1) ltac:(lia) P1).
      pose proof (BD (char_width_pixels (d_vms_cfg d)) (rwidth e) ltac:(lia) P3).
      pose proof (BD (char_height_pixels (d_vms_cfg d)) (ry e - 1) ltac:(lia) P2).
      pose proof (BD (char_height_pixels (d_vms_cfg d)) (rheight e) ltac:(lia) P4).
      assert (forall a b : Z, a <= b \/ ~ a <= b) as LD by lia.
      assert ((1 <= rwidth e /\ 1 <= rheight e \/ sign_width_pixels (d_vms_cfg d) = 0 /\ sign_height_pixels (d_vms_cfg d) = 0)
        \/ ~ (1 <= rwidth e /\ 1 <= rheight e \/ sign_width_pixels (d_vms_cfg d) = 0 /\ sign_height_pixels (d_vms_cfg d) = 0)) by lia.
      pose proof (LD (rx e - 1 + rwidth e) (sign_width_pixels (d_vms_cfg d))).
      pose proof (LD (ry e - 1 + rheight e) (sign_height_pixels (d_vms_cfg d))). tauto. }
    destruct Dec as [G|G]; [|apply G2 in G; discriminate]. split; auto. specialize (G1 G). now injection G1.
Qed.

(** ** Graphics *)

Lemma graphic_colors_snoc d c vs v : graphic_colors d c (vs ++ [v]) =
  colors d (or_else (says_fg d v) (fg_current (graphic_colors d c vs)))
    (or_else (says_cb d v) (bg_current (graphic_colors d c vs))).
Proof.
  unfold graphic_colors. cbn [colors fg_current bg_current]. unfold fg_of. rewrite app_assoc, !in_force_snoc. reflexivity.
Qed.

(** What ends the values of a text rectangle. *)
Definition stops (xs : Outcomes) : Prop :=
  match xs with [] => True | x :: _ => exists v, x = Val (Ok v) /\ ~ inner v end.

Lemma stops_graphics d xs ctx p q : stops xs -> render_graphics_loop Debug d (bare xs) ctx p = Val (Ok q) -> p = q.
Proof.
  destruct xs as [|x xs]; cbn [bare map render_graphics_loop stops].
  - intros _ [= <-]. reflexivity.
  - intros (v & -> & N). cbn [try]. destruct v; try (exfalso; apply N; exact I); intros [= <-]; reflexivity.
Qed.

Lemma SignSized_same d (p q : Raster rgb) : same_size p q -> SignSized d p -> SignSized d q.
Proof. intros [E1 E2] [H1 H2]. split; congruence. Qed.

Lemma graphics_run d c tail : Built d -> stops tail -> forall vs done p q,
  render_graphics_loop Debug d (bare (okv vs ++ tail)) (graphic_colors d c done) p = Val (Ok q) ->
  Forall inner vs -> place_ok c (done ++ vs) -> SignSized d p -> Graphics d c done vs p q.
Proof.
  intros HB HT. induction vs as [|v vs IH]; intros done p q H HI HP HZ.
  { apply stops_graphics in H; auto. subst. constructor. }
  inversion HI as [|? ? Iv HI']; subst. destruct (place_ok_snoc _ _ _ _ HP) as (HP1 & HV & HP2).
  pose proof (graphic_colors_snoc d c done v) as ES.
  assert (HO : (forall n pos, v <> VGraphic n pos) -> (forall rect clr, v <> VColorRectangle rect clr) ->
    render_graphics_loop Debug d (bare (okv vs ++ tail)) (graphic_colors d c (done ++ [v])) p = Val (Ok q) ->
    Graphics d c done (v :: vs) p q).
  { intros N1 N2 HG. apply Gr_other; auto. }
  assert (EC : graphic_colors d c done = colors d (fg_current (graphic_colors d c done)) (bg_current (graphic_colors d c done)))
    by reflexivity.
  cbn [okv map app bare] in H. fold (okv vs) in H. fold (bare (okv vs ++ tail)) in H.
  destruct v; try contradiction;
    try (cbn [render_graphics_loop try] in H; discriminate H);
    try (cbn [render_graphics_loop try] in H; apply HO; try (intros; discriminate);
         rewrite ES; cbn [says_fg says_cb or_else]; rewrite <- EC; exact H).
  - (* cb *)
    cbn [render_graphics_loop try] in H. apply HO; try (intros; discriminate). rewrite ES. cbn [says_fg says_cb or_else].
    unfold set_background in H. destruct c0 as [c0|].
    + destruct (ctx_rgb _ c0); cbn [try] in H; [|discriminate H]. exact H.
    + exact H.
  - (* cf *)
    cbn [render_graphics_loop try] in H. apply HO; try (intros; discriminate). rewrite ES. cbn [says_fg says_cb or_else].
    unfold set_foreground in H. destruct c0 as [c0|].
    + destruct (ctx_rgb _ c0); cbn [try] in H; [|discriminate H]. exact H.
    + exact H.
  - (* cr *)
    rewrite loop_rect in H. apply try_ok in H as (q1 & E1 & H).
    destruct HV as [HR HC]. pose proof HZ as (Z1 & Z2).
    destruct (Built_parts d HB) as (_ & _ & (C1 & C2 & C3 & C4 & _)). unfold u8, u16 in *.
    assert (edges_fit r /\ sign_width_pixels (d_vms_cfg d) < 65535 /\ sign_height_pixels (d_vms_cfg d) < 65535) as (HE & Hw & Hh).
    { unfold tag_rect in E1. destruct (set_foreground _ _ _) as [ctx' res]. apply try_ok in E1 as (u & _ & E1).
      unfold render_rect in E1. apply bind_val in E1 as (u' & _ & E1). cbv zeta in E1. apply bind_val in E1 as (i & E1 & _).
      split; [apply intersection_edges in E1; auto; now apply rect_ok_u16|].
      rewrite Z1, Z2 in E1. apply intersection_sign in E1; auto; lia. }
    destruct (tag_rect_spec Debug r c0 (graphic_colors d c done) p) as (o & E & RT); unfold u16; try (rewrite ?Z1, ?Z2; lia).
    + now apply rect_ok_u16.
    + unfold arith_ok. rewrite Z1, Z2. splits; auto; lia.
    + unfold rect_ok in HR. lia.
    + unfold rect_ok in HR. lia.
    + apply (graphic_colors_bytes d c done HB HP1).
    + exact HC.
    + rewrite E1 in E. injection E as <-. apply Gr_rect with (q := q1); auto. apply IH; auto.
      * rewrite ES. exact H.
      * apply (SignSized_same d p); auto. unfold tag_rect in E1. destruct (set_foreground _ _ _) as [ctx' res].
        apply try_ok in E1 as (u & _ & E1). now apply render_rect_size in E1.
  - (* g *)
    rewrite loop_graphic in H. cbv zeta in H.
    assert (EP : match p0 with Some q0 => q0 | None => (1, 1, None) end = or_else p0 (1, 1, None)) by (destruct p0; reflexivity).
    rewrite EP in H. clear EP. destruct (or_else p0 (1, 1, None)) as [[x y] id] eqn:EO.
    apply try_ok in H as (q1 & E1 & H).
    assert (1 <= x /\ 1 <= y) as [Px Py].
    { destruct p0 as [[[x0 y0] i0]|]; cbn in EO; injection EO as <- <- <-; [|lia]. cbn in HV. lia. }
    pose proof HB as (md & b & Hb & HBD). destruct (build_valid md b d Hb HBD) as (_ & _ & GF & GV & _).
    destruct (tag_graphic_spec Debug d n x y id (graphic_colors d c done) p GF) as (r & E & GT); auto.
    + intros g I U. destruct (GV g I U) as (_ & _ & _ & C & K). auto.
    + cbn in HV. lia.
    + now apply graphic_colors_bytes.
    + rewrite E1 in E. injection E as <-. apply Gr_graphic with (q := q1).
      * rewrite EO. exact GT.
      * apply IH; auto.
        -- rewrite ES. exact H.
        -- apply (SignSized_same d p); auto. unfold tag_graphic in E1. apply try_ok in E1 as (g & _ & E1).
           apply map_err_ok in E1. now apply render_graphic_size in E1.
Qed.

(** ** Text *)

Lemma texts_rect d c vs : forall a s, In s (texts d c a vs) -> s_rect s = pl_rect c.
Proof.
  induction vs as [|v vs IH]; intros a s H; cbn [texts] in H; [contradiction|].
  apply in_app_or in H as [H|H]; [|eauto].
  destruct v; try contradiction; try (destruct (blank_line a); [|contradiction]); destruct H as [<-|[]]; reflexivity.
Qed.

Lemma font_used d vs : Forall value_ok vs -> fst (font_of d vs) <> 0 \/ fst (font_of d vs) = default_font (d_multi_cfg d).
Proof.
  intros HV. unfold font_of. apply (in_force_ok (fun p => fst p <> 0 \/ fst p = default_font (d_multi_cfg d))); auto.
  rewrite Forall_forall in HV. intros v y I E. specialize (HV v I). destruct v; try discriminate E. cbn in E. injection E as <-.
  destruct f as [[n k]|]; cbn in *; auto. lia.
Qed.

Lemma texts_font d c vs : forall a s, place_ok c (a ++ vs) -> In s (texts d c a vs) ->
  rs_font (span_state s) <> 0 \/ rs_font (span_state s) = default_font (d_multi_cfg d).
Proof.
  induction vs as [|v vs IH]; intros a s HP H; cbn [texts] in H; [contradiction|].
  destruct (place_ok_snoc _ _ _ _ HP) as (HP1 & HV & HP2).
  apply in_app_or in H as [H|H]; [|eauto].
  assert (HF : rs_font (setting d c a) <> 0 \/ rs_font (setting d c a) = default_font (d_multi_cfg d)) by (apply font_used; auto; now apply place_ok_past).
  destruct v; try contradiction; try (destruct (blank_line a); [|contradiction]); destruct H as [<-|[]]; exact HF.
Qed.

Lemma font_sound d n : Usable d -> n <> 0 \/ n = default_font (d_multi_cfg d) -> SoundFont d n.
Proof. intros HD [N| ->]; [now left|exact HD]. Qed.

Lemma texts_sound d c vs s : Usable d -> place_ok c vs -> In s (texts d c [] vs) -> SoundFont d (rs_font (span_state s)).
Proof.
  intros HD HP I. destruct (texts_font d c vs [] s HP I) as [N|E]; [now left|]. rewrite E. exact HD.
Qed.

(** A text rectangle on the sign. *)
Definition rect_in (d : Dms) (r : Rectangle) : Prop :=
  1 <= rx r /\ 1 <= ry r /\ 0 <= rwidth r /\ 0 <= rheight r
  /\ rx r - 1 + rwidth r <= sign_width_pixels (d_vms_cfg d)
  /\ ry r - 1 + rheight r <= sign_height_pixels (d_vms_cfg d).

Lemma rect_in_sign d : Built d -> rect_in d (sign_rect d).
Proof. intros HB. destruct (Built_parts d HB) as (_ & _ & (C1 & C2 & C3 & C4 & _)). unfold u8, u16 in *. unfold rect_in, sign_rect. cbn. lia. Qed.

Lemma rect_in_good d r : rect_ok r -> GoodTextRect d r ->
  rect_in d (rect_on (sign_width_pixels (d_vms_cfg d)) (sign_height_pixels (d_vms_cfg d)) r).
Proof.
  intros HR (_ & H3 & H4 & _). unfold rect_in. cbv zeta in *.
  unfold rect_ok in HR. splits; auto; unfold rect_on in *; cbn [rx ry rwidth rheight] in *; try lia;
    destruct (rwidth r =? 0), (rheight r =? 0); unfold u16 in HR; lia.
Qed.

Lemma spans_lit d all : Built d -> Forall span_fields all -> forall todo p q, incl todo all ->
  (forall s, In s todo -> SpanOn p s) -> raster_small p ->
  render_spans_loop Debug d all todo p = Val (Ok q) ->
  forall x y, r_pixel q x y = r_pixel p x y
      \/ exists s f cs a b, In s todo /\ SetWith (d_fonts d) s f cs
           /\ InkText (spacing_in s f) (f_height f) cs a b x y
           /\ r_pixel q x y = foreground_rgb (rs_ctx (span_state s))
           /\ (KeepsCells d s -> SoundFont d (rs_font (span_state s)) -> InRect (s_rect s) x y).
Proof.
  intros HB HS. destruct (Built_parts d HB) as (HF & HV & HC).
  induction todo as [|s r IH]; intros p q HI HO Hsm H x y.
  - cbn in H. injection H as <-. auto.
  - destruct (draw_cons d HF HV HC all s r p q HS (HI s (or_introl eq_refl)) (HO s (or_introl eq_refl)) Hsm H)
      as (a & b & f & cs & m & Ea & _ & HW & (P1 & P2 & P3) & IN & H').
    destruct (IH m q) with (x := x) (y := y) as [E|(t & g & ct & a' & b' & It & E)]; auto.
    + intros t It. apply HI. now right.
    + intros t It. apply (SpanOn_size p); auto. apply HO. now right.
    + unfold raster_small in *. lia.
    + rewrite E. destruct (P3 x y) as [L N].
      destruct (ink_known d HF HC all s a b f cs x y HS (HI s (or_introl eq_refl)) (proj1 (HO s (or_introl eq_refl))) Ea HW) as [LT|LT].
      * right. exists s, f, cs, a, b. splits; auto; now left.
      * left. now apply N.
    + right. exists t, g, ct, a', b'. destruct E as (E1 & E2 & E3 & E4). splits; auto. now right.
Qed.

Lemma text_lit d spans p q : Built d -> Forall span_fields spans ->
  (forall s, In s spans -> SpanOn p s) -> raster_small p ->
  render_text_spans Debug d spans p = Val (Ok q) ->
  forall x y, r_pixel q x y = r_pixel p x y
      \/ exists s f cs a b, In s spans /\ SetWith (d_fonts d) s f cs
           /\ InkText (spacing_in s f) (f_height f) cs a b x y
           /\ r_pixel q x y = foreground_rgb (rs_ctx (span_state s))
           /\ (KeepsCells d s -> SoundFont d (rs_font (span_state s)) -> InRect (s_rect s) x y).
Proof.
  intros HB HS HO Hsm H. unfold render_text_spans in H. apply try_ok in H. destruct H as (u & _ & H).
  apply (spans_lit d spans HB HS spans p q); auto. apply incl_refl.
Qed.

Lemma text_shown d c vs p q : Built d -> place_ok c vs -> rect_in d (pl_rect c) -> SignSized d p ->
  Forall span_fields (texts d c [] vs) ->
  render_text_spans Debug d (texts d c [] vs) p = Val (Ok q) ->
  TextShown d (texts d c [] vs) (pl_rect c) p q.
Proof.
  intros HB HP HR (Z1 & Z2) HS H.
  destruct (Built_parts d HB) as (_ & _ & (C1 & C2 & C3 & C4 & _)). unfold u8, u16 in *.
  assert (HO : forall s, In s (texts d c [] vs) -> SpanOn p s).
  { intros s I. unfold SpanOn. rewrite (texts_rect d c vs [] s I). unfold rect_in in HR. splits.
    - unfold rect_fits. lia.
    - unfold InRect, on_raster. intros x y. rewrite Z1, Z2. lia. }
  assert (HM : raster_small p) by (unfold raster_small; lia).
  constructor.
  - apply text_spans_size in H. unfold same_size in H. lia.
  - exact HS.
  - intros s I. now apply (texts_font d c vs []).
  - intros HOO. apply (tag_conflict Debug d _ p) in HOO. rewrite HOO in H. discriminate H.
  - intros x y. destruct (text_lit d (texts d c [] vs) p q HB HS HO HM H x y) as [E|(s & f & cs & a & b & I & HW & HL & E & HK)]; auto.
    right. exists s, f, cs, a, b. splits; auto. rewrite <- (texts_rect d c vs [] s I). exact HK.
  - now apply text_drawn_at.
  - intros HN HST. now apply text_drawn.
Qed.

(** ** One page *)

Lemma Forall_inner_rect vs : Forall inner vs -> no_text_rect vs.
Proof. intros H r I. rewrite Forall_forall in H. apply (H _ I). Qed.

Definition values_ok (xs : Outcomes) : Prop := forall v, In (Val (Ok v)) xs -> value_ok v.

Lemma values_ok_app vs xs : values_ok (okv vs ++ xs) -> Forall value_ok vs /\ values_ok xs.
Proof.
  intros H. split.
  - apply Forall_forall. intros v I. apply H. apply in_or_app. left. unfold okv. apply in_map_iff. eauto.
  - intros v I. apply H. apply in_or_app. now right.
Qed.

Lemma next_setting d c vs r q :
  set_span (set_line (set_rect (setting d c vs) q) 0) 0 =
  setting d (mkPlace (pl_earlier c) (pl_page c) (pl_upto c ++ vs ++ [VTextRectangle r]) q) [].
Proof.
  unfold setting, page_colors. cbv zeta. cbn [pl_earlier pl_page pl_upto pl_rect]. rewrite !app_nil_r.
  unfold fg_of, jp_of, jl_of, font_of. rewrite !app_assoc.
  rewrite (in_force_app says_lead _ [_]). 
  rewrite !in_force_app. cbn [in_force says_fg says_jp says_jl says_font says_lead says_spacing]. reflexivity.
Qed.

(** The state after a page. *)
Definition after_page (d : Dms) (c : Place) (vs : list Value) (rs : RenderState) : Prop :=
  exists c' ws, rs = setting d c' ws /\ pl_earlier c' = pl_earlier c /\ pl_page c' = pl_page c
    /\ pl_upto c' ++ ws = pl_upto c ++ vs.

Lemma page_loop_shown d : Built d -> forall fuel n c p raster p' raster',
  ap_rs p = setting d c [] -> ap_state p = PsOn false -> place_ok c [] -> values_ok (ap_rest p) ->
  rect_in d (pl_rect c) -> SignSized d raster ->
  a_page_loop Debug d fuel n p raster = Val (p', Ok raster') ->
  exists vs tail, ap_rest p = okv vs ++ tail /\ no_page_break vs
    /\ (tail = [] \/ exists r, tail = Val (Ok VNewPage) :: r)
    /\ Rendered d (TextsShown d) c vs raster raster' /\ after_page d c vs (ap_rs p').
Proof.
  intros HB. induction fuel as [|f IH]; intros n c p raster p' raster' HRS Hst HP HV HR HZ H;
    cbn [a_page_loop] in H; [discriminate|].
  rewrite Hst in H.
  apply bind_val in H as (g & HG & H). destruct g as [r1|e]; [|discriminate].
  apply bind_val in H as ([p1 r2] & HT & H). destruct r2 as [r2|e]; [|discriminate].
  unfold a_text_rect in HT. apply bind_val in HT as (e & HE & HT).
  destruct (a_rtr_ok _ _ _ _ _ _ _ _ _ HE) as [_ HOK].
  destruct (a_res e) as [[]|er] eqn:ER; [|discriminate].
  apply bind_val in HT as (r3 & HTS & HT). injection HT as <- ->.
  specialize (HOK eq_refl). cbv zeta in H.
  destruct (MAX_TEXT_RECTANGLES <? n + 1); [discriminate|].
  assert (HC0 : counts_ok (setting d c [])) by (unfold counts_ok; cbn; unfold u8; lia).
  rewrite HRS in HE, HG.
  assert (KEY : forall vs tail, ap_rest p = okv vs ++ tail -> Forall inner vs -> stops tail ->
    place_ok c vs /\ values_ok tail
    /\ Graphics d c [] vs raster r1 /\ TextShown d (texts d c [] vs) (pl_rect c) r1 r2
    /\ SignSized d r2
    /\ exists po lb, a_rtr Debug d (rs_new d) po tail (setting d c vs) (texts d c [] vs) lb = Val e).
  { intros vs tail Hx Hi Hs. rewrite Hx in *. destruct (values_ok_app _ _ HV) as [V1 V2].
    assert (HPv : place_ok c vs) by (destruct HP as (? & ? & ? & ?); unfold place_ok; auto).
    pose proof (rtr_run d c _ tail e vs [] [] HE ER Hi HPv HC0) as [HE' HSF]. cbn [app] in HE'.
    assert (HZ1 : SignSized d r1) by (apply (SignSized_same d raster); auto; now apply graphics_size in HG).
    assert (ESP : a_spans e = texts d c [] vs).
    { destruct tail as [|x tail]; cbn [a_rtr] in HE'; [injection HE' as <-; reflexivity|].
      destruct Hs as (v & -> & N). cbn [bind] in HE'. destruct v; try (exfalso; apply N; exact I).
      - injection HE' as <-. reflexivity.
      - apply bind_val in HE' as (o & _ & HE'). destruct o; injection HE' as <-; reflexivity. }
    rewrite ESP in HTS. splits; auto.
    - apply (graphics_run d c tail HB Hs vs [] raster r1); auto.
    - apply text_shown; auto.
    - apply (SignSized_same d r1); auto. now apply text_spans_size in HTS.
    - eauto. }
  destruct HOK as [vs e Hx Hi HR1 HS1 HR2|vs e Hx Hi HS1 HR2|vs r q e Hx Hi HS1 HUT HR2].
  - destruct f; [discriminate|]. rewrite a_page_loop_stop in H.
    2:{ cbn [ap_state]. rewrite HS1. apply done_on. }
    injection H as <- <-.
    destruct (KEY vs []) as (HPv & _ & KG & KT & _ & po & lb & KE); auto. { now rewrite app_nil_r. } { exact I. }
    cbn [a_rtr] in KE. injection KE as <-.
    exists vs, []. rewrite app_nil_r. splits; auto.
    + now apply inner_np.
    + apply Rd_last with (q := r1); auto. now apply Forall_inner_rect.
    + exists c, vs. splits; auto.
  - destruct f; [discriminate|]. rewrite a_page_loop_stop in H.
    2:{ cbn [ap_state]. rewrite HS1. apply new_page_on. }
    injection H as <- <-.
    destruct (KEY vs (Val (Ok VNewPage) :: a_rest e)) as (HPv & _ & KG & KT & _ & po & lb & KE); auto.
    { exists VNewPage. split; auto. }
    cbn [a_rtr bind] in KE. injection KE as <-.
    eexists vs, _. splits; eauto.
    + now apply inner_np.
    + apply Rd_last with (q := r1); auto. now apply Forall_inner_rect.
    + exists c, vs. splits; auto.
  - destruct (KEY vs (Val (Ok (VTextRectangle r)) :: a_rest e)) as (HPv & HVt & KG & KT & KZ & po & lb & KE); auto.
    { exists (VTextRectangle r). split; auto. }
    assert (HRr : rect_ok r) by (apply (HVt (VTextRectangle r)); now left).
    destruct (good_rect d r q HB HRr HUT) as [HGR ->].
    cbn [a_rtr bind] in KE. rewrite HUT in KE. cbn [bind] in KE. injection KE as KE.
    set (q := rect_on _ _ r) in *.
    set (c' := mkPlace (pl_earlier c) (pl_page c) (pl_upto c ++ vs ++ [VTextRectangle r]) q).
    assert (ERS : a_rs e = setting d c' []) by (rewrite <- KE; cbn [a_rs]; apply next_setting).
    apply (IH (n + 1) c') in H; auto.
    + destruct H as (ws & tail & Hx' & Hn & Ht & HRd & (c2 & us & E1 & E2 & E3 & E4)).
      cbn [ap_rest] in Hx'. exists (vs ++ VTextRectangle r :: ws), tail. splits; auto.
      * rewrite Hx, Hx', okv_app. cbn [okv map]. rewrite <- app_assoc. reflexivity.
      * intros HI. apply in_app_or in HI as [HI|[HI|HI]]; [apply (inner_np vs Hi HI)|discriminate|apply (Hn HI)].
      * apply Rd_rect with (q := r1) (q' := r2); auto. now apply Forall_inner_rect.
      * exists c2, us. splits; auto. rewrite E4. cbn [pl_upto c']. rewrite <- !app_assoc. reflexivity.
    + destruct HP as (P1 & P2 & P3 & P4). destruct HPv as (_ & _ & _ & P5).
      unfold place_ok. cbn [pl_earlier pl_page pl_upto c']. splits; auto. rewrite !Forall_app. splits; auto.
    + intros v I. apply HVt. now right.
    + cbn [pl_rect c']. now apply rect_in_good.
Qed.

(** ** All pages *)

Definition come (d : Dms) (before : list Value) (rs : RenderState) : Prop :=
  exists c ws, rs = setting d c ws /\ pl_earlier c ++ pl_page c = before
    /\ (pl_earlier c ++ pl_upto c) ++ ws = before.

Lemma come_new d : come d [] (rs_new d).
Proof. exists (mkPlace [] [] [] (sign_rect d)), []. splits; auto. Qed.

Lemma come_after d before pg rs : after_page d (mkPlace before pg [] (sign_rect d)) pg rs ->
  come d (before ++ pg) rs.
Proof.
  intros (c & ws & -> & E1 & E2 & E3). cbn in *. exists c, ws. splits; auto; [congruence|].
  rewrite <- app_assoc, E3. congruence.
Qed.

Lemma page_start_setting d before rs pg : come d before rs ->
  page_start d rs pg = setting d (mkPlace before pg [] (sign_rect d)) [].
Proof.
  intros (c & ws & -> & E1 & E2).
  assert (B : last_bg (rs_ctx (setting d c ws)) pg (bg_current (rs_ctx (setting d c ws))) = bg_of d (before ++ pg)).
  { change (last_bg (rs_ctx (setting d c ws)) pg) with (last_bg (dms_color_ctx d) pg).
    rewrite last_bg_force. unfold bg_of. rewrite in_force_app. cbn. now rewrite E1. }
  assert (T : last_times (rs_new d) pg (rs_on_time (setting d c ws), rs_off_time (setting d c ws)) = times_of d (before ++ pg)).
  { rewrite last_times_force. unfold times_of. rewrite in_force_app. cbn. rewrite E1.
    now rewrite <- surjective_pairing. }
  unfold page_start. rewrite B, T. unfold setting. cbv zeta. cbn [pl_earlier pl_page pl_upto pl_rect].
  unfold page_colors. cbn [pl_earlier pl_page pl_upto pl_rect]. rewrite !app_nil_r, E2. reflexivity.
Qed.

Lemma Forall_sub {A} (P : A -> Prop) l m : (forall x, In x l -> In x m) -> Forall P m -> Forall P l.
Proof. intros H HF. rewrite Forall_forall in *. auto. Qed.


Lemma on_page_shown d before p p' P pg tail :
  Built d -> Forall value_ok before -> come d before (ap_rs p) ->
  values_ok (ap_rest p) -> ap_rest p = okv pg ++ tail -> no_page_break pg ->
  (tail = [] \/ exists r, tail = Val (Ok VNewPage) :: r) ->
  a_on_page Debug d p = Val (p', Ok P) ->
  PageShown d (TextsShown d) before pg (pg_raster P) /\ pg_duration P = fst (times_of d (before ++ pg))
  /\ after_page d (mkPlace before pg [] (sign_rect d)) pg (ap_rs p').
Proof.
  intros HB HV0 HC HV Hx Hn Ht H.
  apply on_page_ok in H as (pg' & tail' & Hx' & Hn' & HF & HT & _ & _ & HPO & HD & _ & raster & HL & HR).
  assert (pg' = pg) as ->.
  { rewrite Hx in Hx'. apply okv_split in Hx'; auto; [|eapply PageTail_weak; eauto]. symmetry. tauto. }
  rewrite (page_start_setting d before _ pg HC) in *.
  set (c := mkPlace before pg [] (sign_rect d)) in *.
  pose proof HV as HV'. rewrite Hx in HV'. apply values_ok_app in HV' as [HVpg _].
  apply (page_loop_shown d HB 52 0 c) in HL; auto.
  - destruct HL as (vs & tl & Hx2 & Hn2 & Ht2 & HRd & HA). cbn [ap_rest] in Hx2.
    assert (vs = pg) as ->.
    { rewrite Hx in Hx2. apply okv_split in Hx2; auto. symmetry. tauto. }
    splits; auto. rewrite HR. exact HRd.
  - unfold place_ok. cbn. splits; auto.
  - cbn [pl_rect c]. now apply rect_in_sign.
  - split; reflexivity.
Qed.

Lemma pictures d ms ps : Built d -> Yields Debug d ms (map Ok ps) ->
  PagesShow d (PageShown d (TextsShown d)) ms ps.
Proof.
  intros HB H.
  refine (pages_show Debug d (fun before rs => Forall value_ok before /\ come d before rs) value_ok _ _ _ ms ps _ _ H).
  - intros before p p' P pg tail [HV0 HC] Hx Hn Ht HV HO.
    assert (HVx : Forall value_ok pg).
    { apply Forall_forall. intros v I. apply HV. rewrite Hx. apply in_or_app. left. unfold okv. apply in_map_iff. eauto. }
    destruct (on_page_shown d before p p' P pg tail HB HV0 HC HV Hx Hn Ht HO) as (KS & _ & KA).
    splits; auto; [apply Forall_app; auto|]. now apply come_after.
  - auto.
  - split; [constructor|apply come_new].
  - intros vs HM. eapply Meaning_oks_ok; eauto.
Qed.
