(** Why a message is not rendered (C55). *)

From Coq Require Import String Lia ZifyBool ZifyNat.
From Verif Require Import Base Str Multi Color Raster Font Graphic Config Sign Render
  Spec_Multi Spec_Color Spec_Font Spec_Tfon Spec_Graphic Spec_Sign Spec_Render Spec_Layout Spec_Draw Spec_Page Spec_Fail
  Proofs_Str Proofs_Split Proofs_Tag Proofs_Norm Proofs_Color Proofs_Font Proofs_Glyph Proofs_Table Proofs_Sign Proofs_Render Proofs_Horiz Proofs_Vert Proofs_Layout
  Proofs_Machine Proofs_Iter Proofs_Pages Proofs_Count Proofs_Build Proofs_Place Proofs_Draw Proofs_Each Proofs_Page
  Spec_Safe Proofs_Modes Proofs_Safe Proofs_Wide Proofs_Text.
Open Scope list_scope.
Ltac Zify.zify_post_hook ::= Z.div_mod_to_equations.

(** ** Tags *)

Lemma color_bytes_legacy c : color_bytes c -> match c with Legacy v => u8 v | _ => True end.
Proof. destruct c; auto. Qed.

Lemma unshown_iff d fg bg c : Built d -> color_bytes c -> (ctx_rgb (colors d fg bg) c = None <-> Unshown d c).
Proof.
  intros HB HC. destruct (defaults_ok d HB) as (D1 & D2).
  assert (HO : forall f b, ctx_ok (colors d f b)) by (intros; split; auto).
  unfold Unshown. split.
  - intros E f b x. rewrite (ctx_rgb_frame _ (colors d f b)) in E by reflexivity.
    now apply (proj1 (ctx_rgb_none _ c (HO f b) (color_bytes_legacy c HC)) E).
  - intros H. apply ctx_rgb_none; auto. now apply color_bytes_legacy.
Qed.

Lemma edges_crash d r : Built d -> u16_rect r -> 1 <= rx r -> 1 <= ry r -> ~ measurable d r ->
  let f := mkRect 1 1 (sign_width_pixels (d_vms_cfg d)) (sign_height_pixels (d_vms_cfg d)) in
  intersection Debug (extend_width_height r f) f = Panic.
Proof.
  intros HB (U1 & U2 & U3 & U4) H1 H2 N f. destruct (Built_parts d HB) as (_ & _ & (C1 & C2 & C3 & C4 & _)).
  assert (u16_rect f) as (F1 & F2 & F3 & F4) by (unfold u16_rect, u16 in *; cbn; lia).
  unfold u16 in *. apply intersection_fault.
  - unfold u16_rect, u16, extend_width_height, sat_sub. cbn [rx ry rwidth rheight].
    destruct (Z.ltb_spec 0 (rwidth r)), (Z.ltb_spec 0 (rheight r)); lia.
  - unfold u16_rect, u16. lia.
  - intros [E E']. apply N. unfold measurable, edges_fit, extend_width_height, sat_sub, f in *. cbn [rx ry rwidth rheight] in E, E'.
    destruct (Z.ltb_spec 0 (rwidth r)), (Z.ltb_spec 0 (rheight r)); lia.
Qed.

(** A release build takes edges past 16 bits for a rectangle off the sign. *)
Lemma edges_off d r : Built d -> u16_rect r -> 1 <= rx r -> 1 <= ry r -> ~ measurable d r ->
  let f := mkRect 1 1 (sign_width_pixels (d_vms_cfg d)) (sign_height_pixels (d_vms_cfg d)) in
  exists i, intersection Release (extend_width_height r f) f = Val i /\ rect_eqb i (extend_width_height r f) = false.
Proof.
  intros HB (U1 & U2 & U3 & U4) H1 H2 N f. destruct (Built_parts d HB) as (_ & _ & (C1 & C2 & C3 & C4 & _)).
  unfold u16 in *. set (R := extend_width_height r f). exists (match intersection Release R f with Val i => i | _ => R end).
  assert (ER : rx R = rx r /\ ry R = ry r /\ 0 <= rwidth R < 65536 /\ 0 <= rheight R < 65536
    /\ (0 < rwidth r -> rwidth R = rwidth r) /\ (rwidth r = 0 -> rwidth R = Z.max 0 (sign_width_pixels (d_vms_cfg d) - (rx r - 1)))
    /\ (0 < rheight r -> rheight R = rheight r) /\ (rheight r = 0 -> rheight R = Z.max 0 (sign_height_pixels (d_vms_cfg d) - (ry r - 1)))).
  { unfold R, f, extend_width_height, sat_sub. cbn [rx ry rwidth rheight].
    destruct (Z.ltb_spec 0 (rwidth r)), (Z.ltb_spec 0 (rheight r)); splits; lia. }
  clearbody R. destruct ER as (E1 & E2 & E3 & E4 & E5 & E6 & E7 & E8).
  assert (NM : 65535 < rx r + rwidth r \/ 65535 < ry r + rheight r
    \/ 65535 <= sign_width_pixels (d_vms_cfg d) \/ 65535 <= sign_height_pixels (d_vms_cfg d)).
  { clear - N. unfold measurable, edges_fit in N. lia. }
  set (W := sign_width_pixels (d_vms_cfg d)) in *. set (H := sign_height_pixels (d_vms_cfg d)) in *. clear N.
  unfold intersection, chk16, f. cbn [rx ry rwidth rheight]. repeat (rewrite chk_release by lia; cbn [bind]).
  destruct (_ && _) eqn:EI.
  - split; auto. unfold rect_eqb. cbn [rx ry rwidth rheight]. lia.
  - split; auto. unfold rect_eqb, rect_default. cbn [rx ry rwidth rheight]. lia.
Qed.

Lemma edges_dec d r : measurable d r \/ ~ measurable d r.
Proof. unfold measurable, edges_fit. lia. Qed.

(** A text rectangle is taken, refused, or crashes. *)
Lemma text_rect_out d r : Built d -> rect_ok r ->
  (measurable d r /\ GoodTextRect d r
     /\ update_text_rectangle Debug d (rs_new d) r
        = Val (Some (rect_on (sign_width_pixels (d_vms_cfg d)) (sign_height_pixels (d_vms_cfg d)) r)))
  \/ (measurable d r /\ ~ GoodTextRect d r /\ update_text_rectangle Debug d (rs_new d) r = Val None)
  \/ (~ measurable d r /\ update_text_rectangle Debug d (rs_new d) r = Panic
      /\ update_text_rectangle Release d (rs_new d) r = Val None).
Proof.
  intros HB HR.
  destruct (Built_parts d HB) as (_ & _ & (C1 & C2 & C3 & C4 & _)). unfold u8, u16 in *.
  pose proof (rect_ok_u16 r HR) as UR. assert (P : 1 <= rx r /\ 1 <= ry r) by (unfold rect_ok in HR; lia).
  destruct (edges_dec d r) as [HE|HE].
  - destruct (text_rect_spec Debug d r) as (o & E & G1 & G2); unfold u16; try lia; auto.
    { destruct HE as (N1 & N2 & N3). unfold arith_ok. splits; auto. }
    destruct o as [q|].
    + left. destruct (good_rect d r q HB) as (G & ->); auto.
    + right. left. splits; auto. intros G. specialize (G1 G). discriminate G1.
  - right. right. split; auto. unfold update_text_rectangle. cbv zeta.
    pose proof (edges_crash d r HB UR (proj1 P) (proj2 P) HE) as EC. cbv zeta in EC.
    destruct (edges_off d r HB UR (proj1 P) (proj2 P) HE) as (i & EI & NI).
    change (rs_rect (rs_new d)) with (mkRect 1 1 (sign_width_pixels (d_vms_cfg d)) (sign_height_pixels (d_vms_cfg d))).
    rewrite EC, EI. cbn [bind]. rewrite NI. auto.
Qed.

Lemma charb_surrogate h : 0 <= h < 65536 -> (is_charb h = false <-> 55296 <= h <= 57343).
Proof. intros H. unfold is_charb. lia. Qed.

(** The values of a text rectangle end with a fault. *)
Definition rtr_stops (m : mode -> M AEnd) (f : Fault) : Prop :=
  match f with
  | Reported e => exists en, m Debug = Val en /\ a_res en = Err e
  | Crash => False
  | Overflow None => m Debug = Panic
  | Overflow (Some e) => m Debug = Panic /\ exists en, m Release = Val en /\ a_res en = Err e
  end.

Lemma chk8_cases n : 0 <= n < 256 -> (n < 255 /\ forall md, chk8 md (n + 1) = Val (n + 1)) \/ (255 <= n /\ chk8 Debug (n + 1) = Panic).
Proof.
  intros H. destruct (Z_lt_ge_dec n 255) as [L|L]; [left|right]; split; auto; try lia; unfold chk8.
  - intros md. apply chk_in. lia.
  - apply chk_debug. lia.
Qed.

Lemma step_out d c po v xs vs spans : Built d -> value_ok v -> inner v -> ~ BadForeground d v -> counts_ok (setting d c vs) ->
  (exists f, TagFault d c vs v f
     /\ rtr_stops (fun md => a_rtr md d (rs_new d) po (Val (Ok v) :: xs) (setting d c vs) spans (blank_line vs)) f)
  \/ ((forall f, ~ TagFault d c vs v f) /\ ~ BadTag d v
      /\ (forall md, a_rtr md d (rs_new d) po (Val (Ok v) :: xs) (setting d c vs) spans (blank_line vs)
         = a_rtr md d (rs_new d) po xs (setting d c (vs ++ [v])) (spans ++ texts d c vs [v]) (blank_line (vs ++ [v])))
      /\ counts_ok (setting d c (vs ++ [v]))
      /\ (forall h, v = VHexadecimalCharacter h -> is_charb h = true)).
Proof.
  intros HB HV HI HF HC. cbn [a_rtr bind].
  pose proof (setting_snoc d c vs v) as ES. cbv zeta in ES.
  assert (EB : blank_line (vs ++ [v]) = match v with VText _ | VHexadecimalCharacter _ => false | VNewLine _ => true | _ => blank_line vs end).
  { unfold blank_line. rewrite in_force_snoc. destruct v; reflexivity. }
  rewrite EB, ES. clear EB ES.
  assert (EC : rs_ctx (setting d c vs) = colors d (fg_current (rs_ctx (setting d c vs))) (bg_current (rs_ctx (setting d c vs)))) by reflexivity.
  assert (EP : rs_jp (setting d c vs) = jp_of d ((pl_earlier c ++ pl_upto c) ++ vs)) by reflexivity.
  assert (NT : ~ BadTag d v -> (forall t, v = VText t -> rs_span (setting d c vs) < 255) ->
    (forall h, v = VHexadecimalCharacter h -> rs_span (setting d c vs) < 255) ->
    (forall n, v = VNewLine n -> rs_line (setting d c vs) < 255) -> forall f, ~ TagFault d c vs v f).
  { intros N1 N2 N3 N4 f X. destruct X as [v X _|r X|t X|h X _|n X _].
    - auto.
    - exact HI.
    - specialize (N2 t eq_refl). lia.
    - specialize (N3 h eq_refl). lia.
    - specialize (N4 n eq_refl). lia. }
  assert (TB : BadTag d v -> TagFault d c vs v (Reported (SUnsupportedTagValue (display v)))).
  { intros B. apply Tg_bad; auto. destruct B; cbn; auto. destruct HI. }
  assert (TC : forall t, v = VText t -> 255 <= rs_span (setting d c vs) -> TagFault d c vs v (Overflow None)) by (intros t -> X; now apply Tg_text).
  assert (TH : forall t, v = VHexadecimalCharacter t -> ~ BadTag d v -> 255 <= rs_span (setting d c vs) -> TagFault d c vs v (Overflow None)) by (intros t -> X Y; now apply Tg_char).
  assert (TN : forall t, v = VNewLine t -> ~ BadTag d v -> 255 <= rs_line (setting d c vs) -> TagFault d c vs v (Overflow None)) by (intros t -> X Y; now apply Tg_line).
  unfold counts_ok in *. set (past := (pl_earlier c ++ pl_upto c) ++ vs) in *.
  set (TF := TagFault d c vs v) in *. clearbody TF.
  destruct (setting d c vs) as [ctx on off rect jp jl fo vid lead cs ln sn] eqn:EST.
  cbn [rs_ctx rs_on_time rs_off_time rs_rect rs_jp rs_jl rs_font rs_font_vid rs_line_spacing rs_char_spacing rs_line rs_span] in *.
  destruct HC as [HCl HCs]. unfold u8 in HCl, HCs.
  destruct v; try contradiction;
    cbn [says_fg says_jp says_jl says_font says_lead says_spacing or_else changes_jp fst snd texts app] in *;
    rewrite <- ?EC, ?app_nil_r;
    try (right; match type of HI with inner ?w => assert (NB : ~ BadTag d w) by (intros B; inversion B) end; splits;
         [apply NT; auto; intros; discriminate|exact NB|reflexivity|exact HCl|exact HCs|intros h E; discriminate E]).
  - (* cf *)
    right. unfold set_foreground. rewrite EC. destruct c0 as [c0|].
    + destruct (ctx_rgb _ c0) eqn:EQ.
      * splits; [apply NT; try (intros; discriminate); intros B; inversion B|intros B; inversion B|reflexivity|exact HCl|exact HCs|intros h E; discriminate E].
      * exfalso. apply HF. constructor. apply unshown_iff in EQ; auto.
    + splits; [apply NT; try (intros; discriminate); intros B; inversion B|intros B; inversion B|reflexivity|exact HCl|exact HCs|intros h E; discriminate E].
  - (* fo *)
    right. destruct f as [[n k]|]; (splits; [apply NT; try (intros; discriminate); intros B; inversion B|intros B; inversion B|reflexivity|exact HCl|exact HCs|intros h E; discriminate E]).
  - (* hc *)
    cbn in HV. unfold u16 in HV.
    destruct (is_charb c0) eqn:EH.
    + assert (NB : ~ BadTag d (VHexadecimalCharacter c0)).
      { intros B. inversion B; subst. apply charb_surrogate in H0; [congruence|lia]. }
      destruct (chk8_cases sn HCs) as [[L EK]|[L EK]].
      * right. splits; auto.
        -- apply NT; auto; intros; discriminate.
        -- intros md. rewrite EK, EST. reflexivity.
        -- clear - HCl HCs L; unfold u8; cbn; lia.
        -- intros h E. injection E as <-. exact EH.
      * left. exists (Overflow None). split; [eapply TH; eauto|]. cbn [rtr_stops]. rewrite EK. reflexivity.
    + left. apply charb_surrogate in EH; [|lia]. eexists. split; [apply TB; now constructor|].
      eexists. split; reflexivity.
  - (* jl *)
    destruct j as [[]|];
      try (left; eexists; split; [apply TB; constructor; auto|eexists; split; reflexivity]);
      (match type of HI with inner ?w => assert (NB : ~ BadTag d w) by (intros B; inversion B as [j' [E|E]| | | | |]; subst; discriminate) end; right; splits;
        [apply NT; auto; intros; discriminate|exact NB
        |reflexivity|clear - HCl HCs; unfold u8; cbn; lia|clear - HCl HCs; unfold u8; cbn; lia|intros h E; discriminate E]).
  - (* jp *)
    assert (HJ : forall md j', (if negb (jp_eqb j' jp)
        then a_rtr md d (rs_new d) po xs (set_span (set_line (set_jp (mkRS ctx on off rect jp jl fo vid lead cs ln sn) j') 0) 0) spans (blank_line vs)
        else a_rtr md d (rs_new d) po xs (mkRS ctx on off rect jp jl fo vid lead cs ln sn) spans (blank_line vs)) =
      a_rtr md d (rs_new d) po xs
        (mkRS ctx on off rect j' jl fo vid lead cs (if negb (jp_eqb j' (jp_of d past)) then 0 else ln)
           (if negb (jp_eqb j' (jp_of d past)) then 0 else sn)) spans (blank_line vs)).
    { intros md j'. rewrite <- EP. destruct (jp_eqb j' jp) eqn:EJ; cbn [negb].
      - apply jp_eqb_eq in EJ. subst j'. reflexivity.
      - reflexivity. }
    destruct j as [[]|];
      try (left; eexists; split; [apply TB; constructor; auto|eexists; split; reflexivity]);
      cbn [or_else];
      (match type of HI with inner ?w => assert (NB : ~ BadTag d w) by (intros B; inversion B) end; right; splits;
        [apply NT; auto; intros; discriminate|exact NB
        |intros md; rewrite HJ; reflexivity|unfold u8; cbn; destruct (negb _); lia|unfold u8; cbn; destruct (negb _); lia|intros h E; discriminate E]).
  - (* nl *)
    unfold char_height.
    match goal with |- context [if ?b then Val (mkA _ _ _ _ (Err _)) else _] => destruct b eqn:EN end.
    + left. eexists. split; [apply TB|eexists; split; reflexivity]. destruct x as [n|]; [|discriminate EN]. constructor; lia.
    + assert (NB : ~ BadTag d (VNewLine x)) by (intros B; inversion B; subst; lia).
      cbn [rs_line set_line_spacing]. destruct (chk8_cases ln HCl) as [[L EK]|[L EK]].
      * right. splits; auto.
        -- apply NT; auto; intros; discriminate.
        -- intros md. rewrite EK, EST. destruct (blank_line vs); rewrite ?app_nil_r; reflexivity.
        -- clear - HCl HCs L; unfold u8; cbn; lia.
        -- clear - HCl HCs L; unfold u8; cbn; lia.
        -- intros h E. discriminate E.
      * left. exists (Overflow None). split; [eapply TN; eauto|]. cbn [rtr_stops]. rewrite EK. reflexivity.
  - (* sc *)
    unfold char_width. destruct (_ && _) eqn:EN.
    + left. eexists. split; [apply TB; constructor; lia|eexists; split; reflexivity].
    + match type of HI with inner ?w => assert (NB : ~ BadTag d w) by (intros B; inversion B; subst; lia) end.
      right. splits; [apply NT; auto; intros; discriminate|exact NB|reflexivity|exact HCl|exact HCs|intros h E; discriminate E].
  - (* text *)
    match type of HI with inner ?w => assert (NB : ~ BadTag d w) by (intros B; inversion B) end.
    destruct (chk8_cases sn HCs) as [[L EK]|[L EK]].
    + right. splits; auto.
      * apply NT; auto; intros; discriminate.
      * intros md. rewrite EK, EST. reflexivity.
      * clear - HCl HCs L; unfold u8; cbn; lia.
      * intros h E. discriminate E.
    + left. exists (Overflow None). split; [eapply TC; eauto|]. cbn [rtr_stops]. rewrite EK. reflexivity.
Qed.

Definition no_bad (B : Value -> Prop) (vs : list Value) : Prop := forall u, In u vs -> ~ B u.

Lemma no_bad_cons B v vs : no_bad B (v :: vs) <-> ~ B v /\ no_bad B vs.
Proof.
  unfold no_bad. split; [intros H; split; [|intros u I]; apply H; cbn; auto|].
  intros [H K] u [<-|I]; auto.
Qed.

Lemma run_out d c po xs : Built d -> forall ws vs spans,
  Forall inner ws -> place_ok c (vs ++ ws) -> counts_ok (setting d c vs) -> no_bad (BadForeground d) ws ->
  NoFault (TagFault d c) vs ->
  (exists f, First (TagFault d c) (vs ++ ws) f
     /\ rtr_stops (fun md => a_rtr md d (rs_new d) po (okv ws ++ xs) (setting d c vs) spans (blank_line vs)) f)
  \/ (NoFault (TagFault d c) (vs ++ ws) /\ no_bad (BadTag d) ws
      /\ (forall md, a_rtr md d (rs_new d) po (okv ws ++ xs) (setting d c vs) spans (blank_line vs)
         = a_rtr md d (rs_new d) po xs (setting d c (vs ++ ws)) (spans ++ texts d c vs ws) (blank_line (vs ++ ws)))
      /\ Forall span_fields (texts d c vs ws)).
Proof.
  intros HB. induction ws as [|v ws IH]; intros vs spans HI HP HC HF HN.
  - right. cbn [texts okv map app]. rewrite !app_nil_r. splits; [exact HN|intros u []|reflexivity|constructor].
  - cbn [okv map app]. inversion HI; subst. destruct (place_ok_snoc _ _ _ _ HP) as (HP1 & HV & HP2).
    apply no_bad_cons in HF as [HF1 HF2].
    destruct (step_out d c po v (okv ws ++ xs) vs spans HB HV) as [(f & T & E)|(B & NB & E & HC' & HH)]; auto.
    { left. exists f. split; [now apply First_at|exact E]. }
    fold (okv ws).
    assert (HN' : NoFault (TagFault d c) (vs ++ [v])) by (apply NoFault_snoc; auto).
    destruct (IH (vs ++ [v]) (spans ++ texts d c vs [v])) as [(f & T & E')|(Ha & Hb & E' & HS)]; auto; rewrite <- app_assoc in *; cbn [app] in *.
    + left. exists f. split; auto. destruct f as [e| |[e|]]; cbn [rtr_stops] in *; rewrite ?E; auto.
    + right. rewrite (texts_cons d c vs v ws). splits; auto.
      * now apply no_bad_cons.
      * intros md. rewrite E, E', <- !app_assoc. reflexivity.
      * apply Forall_app. split; auto. now apply texts_one_fields.
Qed.

Definition head_rect (tail : Outcomes) : list Value :=
  match tail with Val (Ok (VTextRectangle r)) :: _ => [VTextRectangle r] | _ => [] end.

(** The values of a text rectangle, and what stops them. *)
Lemma rect_out d c po vs tail : Built d -> Forall inner vs -> place_ok c vs ->
  (forall r t, tail = Val (Ok (VTextRectangle r)) :: t -> rect_ok r) -> stops tail ->
  no_bad (BadForeground d) vs -> counts_ok (setting d c []) ->
  (exists f, First (TagFault d c) (vs ++ head_rect tail) f
     /\ rtr_stops (fun md => a_rtr md d (rs_new d) po (okv vs ++ tail) (setting d c []) [] true) f)
  \/ (exists e, a_rtr Debug d (rs_new d) po (okv vs ++ tail) (setting d c []) [] true = Val e
      /\ NoFault (TagFault d c) (vs ++ head_rect tail) /\ no_bad (BadTag d) vs
      /\ Forall span_fields (texts d c [] vs) /\ a_spans e = texts d c [] vs /\ a_res e = Ok tt
      /\ match tail with
         | Val (Ok (VTextRectangle r)) :: t => GoodTextRect d r /\ measurable d r /\ a_state e = PsOn false /\ a_rest e = t
             /\ a_rs e = setting d (mkPlace (pl_earlier c) (pl_page c) (pl_upto c ++ vs ++ [VTextRectangle r])
                  (rect_on (sign_width_pixels (d_vms_cfg d)) (sign_height_pixels (d_vms_cfg d)) r)) []
         | _ => a_state e <> PsOn false
         end).
Proof.
  intros HB HI HP HVt HT HF HC.
  change true with (blank_line []).
  destruct (run_out d c po tail HB vs [] [] HI HP HC HF (NoFault_nil _)) as [(f & T & E)|(Ha & Hb & E & HS)].
  { left. exists f. split; [now apply First_app|exact E]. }
  assert (E' : forall f, rtr_stops (fun md => a_rtr md d (rs_new d) po tail (setting d c vs) (texts d c [] vs) (blank_line vs)) f ->
    rtr_stops (fun md => a_rtr md d (rs_new d) po (okv vs ++ tail) (setting d c []) [] (blank_line [])) f).
  { intros f. destruct f as [e| |[e|]]; cbn [rtr_stops]; rewrite ?E; auto. }
  rewrite E. cbn [app] in *. clear E.
  destruct tail as [|x t]; cbn [a_rtr].
  { right. cbn [head_rect]. rewrite app_nil_r. eexists. splits; auto. apply done_on. }
  destruct HT as (w & -> & N). cbn [bind].
  destruct w; try (exfalso; apply N; exact I).
  - right. cbn [head_rect]. rewrite app_nil_r. eexists. splits; auto. apply new_page_on.
  - assert (HR : rect_ok r) by (now apply (HVt r t)). cbn [head_rect].
    destruct (text_rect_out d r HB HR) as [(FE & G & EO)|[(FE & G & EO)|(FE & EO & EO')]]; rewrite EO; cbn [bind].
    + right. eexists. splits; auto; [|apply next_setting]. apply NoFault_snoc. split; auto.
      intros f X. inversion X; subst; auto. match goal with B : BadTag _ _ |- _ => inversion B; auto end.
    + left. eexists. split; [apply First_at; [exact Ha|apply Tg_bad; [now constructor|exact FE]]|]. apply E'. cbn [rtr_stops a_rtr bind]. rewrite EO. cbn [bind]. eexists. split; reflexivity.
    + left. eexists. split; [apply First_at; [exact Ha|now apply Tg_edges]|]. apply E'. cbn [rtr_stops a_rtr bind]. rewrite EO, EO'.
      cbn [bind]. split; [reflexivity|]. eexists. split; reflexivity.
Qed.

(** ** Graphics *)

Lemma tag_rect_out d r c0 fg bg p : Built d -> SignSized d p -> rect_ok r -> color_bytes c0 ->
  ctx_bytes (colors d fg bg) ->
  (exists o, tag_rect Debug r c0 (colors d fg bg) p = Val o /\ RectTag r c0 (colors d fg bg) p o
     /\ (measurable d r \/ Unshown d c0) /\ (forall q, o = Ok q -> measurable d r))
  \/ (tag_rect Debug r c0 (colors d fg bg) p = Panic /\ ~ measurable d r /\ ~ Unshown d c0
      /\ tag_rect Release r c0 (colors d fg bg) p = Val (Err (SUnsupportedTagValue (display (VColorRectangle r c0))))).
Proof.
  intros HB HZ HR HC HX. pose proof HZ as (Z1 & Z2). pose proof HX as (HO & _).
  destruct (Built_parts d HB) as (_ & _ & (C1 & C2 & C3 & C4 & _)). unfold u8, u16 in *.
  pose proof (rect_ok_u16 r HR) as UR. assert (P : 1 <= rx r /\ 1 <= ry r) by (unfold rect_ok in HR; lia).
  destruct (edges_dec d r) as [HE|HE].
  { left. destruct (tag_rect_spec Debug r c0 (colors d fg bg) p) as (o' & E & RT); unfold u16; try (rewrite ?Z1, ?Z2; lia); auto; try tauto.
    - unfold arith_ok. rewrite Z1, Z2. destruct HE as (N1 & N2 & N3). splits; auto.
    - exists o'. splits; auto. }
  destruct (ctx_rgb (colors d fg bg) c0) eqn:EC.
  - right. splits; auto.
    + unfold tag_rect, set_foreground. rewrite EC. cbn [try]. unfold render_rect.
      destruct (_ && _) eqn:EP; cbn [bind]; [|reflexivity].
      rewrite Z1, Z2, edges_crash; auto; tauto.
    + intros U. apply (unshown_iff d fg bg c0 HB HC) in U. congruence.
    + unfold tag_rect, set_foreground. rewrite EC. cbn [try]. unfold render_rect. cbn [bind].
      destruct (edges_off d r HB UR (proj1 P) (proj2 P) HE) as (i & EI & NI). cbv zeta in EI, NI.
      rewrite Z1, Z2, EI. cbn [bind]. rewrite NI. reflexivity.
  - left. exists (Err (SUnsupportedTagValue (display (VColorRectangle r c0)))).
    assert (EV : tag_rect Debug r c0 (colors d fg bg) p = Val (Err (SUnsupportedTagValue (display (VColorRectangle r c0))))).
    { unfold tag_rect, set_foreground. rewrite EC. reflexivity. }
    splits; auto.
    + apply RTColor. now apply (proj1 (ctx_rgb_none _ c0 HO (color_bytes_legacy c0 HC)) EC).
    + right. now apply (unshown_iff d fg bg c0 HB HC).
    + discriminate.
Qed.

Lemma agree_tag_rect r c0 ctx p : agree (tag_rect Debug r c0 ctx p) (tag_rect Release r c0 ctx p).
Proof. unfold tag_rect. destruct (set_foreground _ _ _). agr. apply agree_render_rect. Qed.

Lemma agree_tag_graphic d n x y id ctx p : agree (tag_graphic Debug d n x y id ctx p) (tag_graphic Release d n x y id ctx p).
Proof. unfold tag_graphic. agr. apply agree_render_graphic. Qed.

Lemma graphics_out d c tail : Built d -> stops tail -> forall vs done p,
  Forall inner vs -> place_ok c (done ++ vs) -> SignSized d p -> no_bad (BadBackground d) vs ->
  fate (render_graphics_loop Debug d (bare (okv vs ++ tail)) (graphic_colors d c done) p)
    (render_graphics_loop Release d (bare (okv vs ++ tail)) (graphic_colors d c done) p)
    (fun q => forall u, In u vs -> Drawable d u)
    (fun f => exists a v b q, vs = a ++ v :: b /\ Graphics d c done a p q
      /\ (forall u, In u a -> Drawable d u) /\ DrawFault d c (done ++ a) q v f).
Proof.
  intros HB HT. induction vs as [|v vs IH]; intros done p HI HP HZ HN.
  { destruct tail as [|x tail]; cbn [app okv map bare render_graphics_loop]; [intros u []|].
    destruct HT as (v & -> & N). cbn [try]. destruct v; try (exfalso; apply N; exact I); intros u []. }
  inversion HI as [|? ? Iv HI']; subst. destruct (place_ok_snoc _ _ _ _ HP) as (HP1 & HV & HP2).
  apply no_bad_cons in HN as [HN1 HN2].
  pose proof (graphic_colors_snoc d c done v) as ES.
  set (G := fun q : Raster rgb => forall u, In u (v :: vs) -> Drawable d u).
  set (S := fun f => exists a w b q, v :: vs = a ++ w :: b /\ Graphics d c done a p q
        /\ (forall u, In u a -> Drawable d u) /\ DrawFault d c (done ++ a) q w f).
  assert (STEP : forall p1, SignSized d p1 -> Drawable d v ->
    (forall a q, Graphics d c (done ++ [v]) a p1 q -> Graphics d c done (v :: a) p q) ->
    fate (render_graphics_loop Debug d (bare (okv vs ++ tail)) (graphic_colors d c (done ++ [v])) p1) (render_graphics_loop Release d (bare (okv vs ++ tail)) (graphic_colors d c (done ++ [v])) p1) G S).
  { intros p1 Z1 NF HG. eapply fate_weak; [apply (IH (done ++ [v]) p1); auto| |].
    - intros q X u [<-|I]; auto.
    - intros f (a & w & b & q & -> & Gr & F & D). exists (v :: a), w, b, q. splits; auto.
      + intros u [<-|I]; auto.
      + rewrite <- app_assoc in D. exact D. }
  assert (HERE : forall f, DrawFault d c done p v f -> S f).
  { intros f D. exists [], v, vs, p. rewrite app_nil_r. splits; auto; [constructor|intros u []]. }
  clearbody G S.
  assert (EC : graphic_colors d c done = colors d (fg_current (graphic_colors d c done)) (bg_current (graphic_colors d c done)))
    by reflexivity.
  cbn [okv map app bare]. fold (okv vs). fold (bare (okv vs ++ tail)).
  destruct v; try contradiction;
    try (cbn [render_graphics_loop try fate]; right; left; split; [apply HERE, Df_unknown; [intros X; exact X|intros; discriminate]|reflexivity]);
    try (cbn [render_graphics_loop try];
         let X := fresh in pose proof (STEP p HZ) as X; rewrite ES in X; cbn [says_fg says_cb or_else] in X; rewrite <- EC in X; apply X;
         [split; [intros B; inversion B|exact I]|intros a q' G'; apply Gr_other; auto; intros; discriminate]).
  - (* cb *)
    cbn [render_graphics_loop try].
    assert (X : fate (render_graphics_loop Debug d (bare (okv vs ++ tail)) (graphic_colors d c (done ++ [VColorBackground c0])) p) (render_graphics_loop Release d (bare (okv vs ++ tail)) (graphic_colors d c (done ++ [VColorBackground c0])) p) G S).
    { apply (STEP p); auto; [split; [intros B; inversion B|exact I]|intros a q' G'; apply Gr_other; auto; intros; discriminate]. }
    rewrite ES in X. cbn [says_fg says_cb or_else] in X. unfold set_background. destruct c0 as [c0|]; [|exact X].
    destruct (ctx_rgb (graphic_colors d c done) c0) eqn:EQ; cbn [try]; [exact X|].
    exfalso. apply HN1. constructor. rewrite EC in EQ. apply unshown_iff in EQ; auto.
  - (* cf *)
    cbn [render_graphics_loop try]. unfold set_foreground.
    assert (X : ~ BadForeground d (VColorForeground c0) ->
      fate (render_graphics_loop Debug d (bare (okv vs ++ tail)) (graphic_colors d c (done ++ [VColorForeground c0])) p) (render_graphics_loop Release d (bare (okv vs ++ tail)) (graphic_colors d c (done ++ [VColorForeground c0])) p) G S).
    { intros NB. apply (STEP p); auto; [split; [exact NB|exact I]|intros a q' G'; apply Gr_other; auto; intros; discriminate]. }
    rewrite ES in X. destruct c0 as [c0|].
    + destruct (ctx_rgb (graphic_colors d c done) c0) eqn:EQ; cbn [try].
      * apply X. intros B. inversion B as [k U]; subst.
        apply (unshown_iff d (fg_current (graphic_colors d c done)) (bg_current (graphic_colors d c done))) in U; auto.
        rewrite <- EC in U. congruence.
      * cbn [fate]. apply HERE, Df_color. constructor. rewrite EC in EQ. apply unshown_iff in EQ; auto.
    + apply X. intros B; inversion B.
  - (* cr *)
    rewrite loop_rect. destruct HV as [HR HC].
    destruct (tag_rect_out d r c0 (fg_current (graphic_colors d c done)) (bg_current (graphic_colors d c done)) p HB HZ HR HC
      (graphic_colors_bytes d c done HB HP1)) as [(o & E1 & RT & HE & HQ)|(E1 & NE & NU & E2)]; rewrite loop_rect; rewrite <- EC in *; rewrite E1; [rewrite (agree_tag_rect _ _ _ _ _ E1)|rewrite E2]; cbn [try].
    + destruct o as [q1|e].
      * assert (X : fate (render_graphics_loop Debug d (bare (okv vs ++ tail)) (graphic_colors d c (done ++ [VColorRectangle r c0])) q1) (render_graphics_loop Release d (bare (okv vs ++ tail)) (graphic_colors d c (done ++ [VColorRectangle r c0])) q1) G S).
        { apply (STEP q1); auto.
          - apply (SignSized_same d p); auto. unfold tag_rect in E1. destruct (set_foreground _ _ _) as [ctx' res].
            apply try_ok in E1 as (u & _ & E1). now apply render_rect_size in E1.
          - split; [intros B; inversion B|]. cbn. eauto.
          - intros a q G'. now apply Gr_rect with (q := q1). }
        rewrite ES in X. exact X.
      * cbn [fate]. apply HERE. now apply Df_rect.
    + cbn [fate]. right. right. eexists. split; [apply HERE; now apply Df_edges|reflexivity].
  - (* g *)
    rewrite !loop_graphic. cbv zeta.
    assert (EP : match p0 with Some q0 => q0 | None => (1, 1, None) end = or_else p0 (1, 1, None)) by (destruct p0; reflexivity).
    rewrite EP. clear EP. destruct (or_else p0 (1, 1, None)) as [[x y] id] eqn:EO.
    assert (1 <= x /\ 1 <= y) as [Px Py].
    { destruct p0 as [[[x0 y0] i0]|]; cbn in EO; injection EO as <- <- <-; [|lia]. cbn in HV. lia. }
    pose proof HB as (md & b & Hb & HBD). destruct (build_valid md b d Hb HBD) as (_ & _ & GF & GV & _).
    destruct (tag_graphic_spec Debug d n x y id (graphic_colors d c done) p GF) as (o & E1 & GT); auto.
    + intros g I U. destruct (GV g I U) as (_ & _ & _ & C & K). auto.
    + cbn in HV. lia.
    + now apply graphic_colors_bytes.
    + rewrite E1, (agree_tag_graphic _ _ _ _ _ _ _ _ E1). destruct o as [q1|e]; cbn [try].
      * assert (X : fate (render_graphics_loop Debug d (bare (okv vs ++ tail)) (graphic_colors d c (done ++ [VGraphic n p0])) q1) (render_graphics_loop Release d (bare (okv vs ++ tail)) (graphic_colors d c (done ++ [VGraphic n p0])) q1) G S).
        { apply (STEP q1); auto.
          - apply (SignSized_same d p); auto. unfold tag_graphic in E1. apply try_ok in E1 as (g & _ & E1).
            apply map_err_ok in E1. now apply render_graphic_size in E1.
          - split; [intros B; inversion B|exact I].
          - intros a q G'. apply Gr_graphic with (q := q1); auto. rewrite EO. exact GT. }
        rewrite ES in X. exact X.
      * cbn [fate]. apply HERE. apply Df_graphic. rewrite EO. exact GT.
Qed.

(** ** Text rectangles of a page *)

Lemma split_rect pg : no_page_break pg ->
  exists vs after, pg = vs ++ after /\ Forall inner vs
    /\ (after = [] \/ exists r rest, after = VTextRectangle r :: rest).
Proof.
  induction pg as [|v pg IH]; intros H.
  - exists [], []. auto.
  - assert (no_page_break pg) as Hn by (intros I; apply H; now right).
    destruct (IH Hn) as (vs & after & -> & HI & HA).
    destruct v; try (eexists (_ :: vs), after; splits; [reflexivity|constructor; [exact I|exact HI]|exact HA]).
    + exfalso. apply H. now left.
    + exists [], (VTextRectangle r :: vs ++ after). splits; auto. right. eauto.
Qed.

Lemma text_rects_app a b : text_rects (a ++ b) = (text_rects a + text_rects b)%nat.
Proof. apply Proofs_Pages.text_rects_app. Qed.

Lemma spans_on d c vs (p : Raster rgb) : Built d -> place_ok c vs -> rect_in d (pl_rect c) -> SignSized d p ->
  (forall s, In s (texts d c [] vs) -> SpanOn p s) /\ raster_small p.
Proof.
  intros HB HP HR (Z1 & Z2). destruct (Built_parts d HB) as (_ & _ & (C1 & C2 & C3 & C4 & _)). unfold u8, u16 in *. split; [|unfold raster_small; lia].
  intros s I. unfold SpanOn. rewrite (texts_rect d c vs [] s I). unfold rect_in in HR. splits.
  - unfold rect_fits. lia.
  - unfold InRect, on_raster. intros x y. rewrite Z1, Z2. lia.
Qed.

(** How a computation that also keeps a state ends. *)
Definition ends {A B} (m r : M (A * result B SyntaxError)) (G : A -> B -> Prop) (S : Fault -> Prop) : Prop :=
  match m with
  | Val (a, Ok b) => G a b
  | Val (_, Err e) => S (Reported e)
  | Panic => S (Overflow None) \/ (S Crash /\ r = Panic) \/ (exists e a, S (Overflow (Some e)) /\ r = Val (a, Err e))
  | Hang => False
  end.

Lemma loop_out d : Built d -> forall fuel c p raster pg tail,
  ap_rs p = setting d c [] -> ap_state p = PsOn false -> place_ok c [] ->
  ap_rest p = okv pg ++ tail -> no_page_break pg -> Forall value_ok pg ->
  (tail = [] \/ exists t, tail = Val (Ok VNewPage) :: t) -> no_bad (BadBackground d) pg ->
  rect_in d (pl_rect c) -> SignSized d raster -> (text_rects (pl_upto c) <= 50)%nat ->
  (52 <= fuel + text_rects (pl_upto c))%nat ->
  ends (a_page_loop Debug d fuel (Z.of_nat (text_rects (pl_upto c))) p raster)
    (a_page_loop Release d fuel (Z.of_nat (text_rects (pl_upto c))) p raster)
    (fun _ q => Rendered d (Accepted d) c pg raster q /\ forall r, In (VTextRectangle r) pg -> measurable d r)
    (Fails d c pg raster).
Proof.
  intros HB. induction fuel as [|f IH]; intros c p raster pg tail HRS Hst HP Hx Hn HV Ht HN HR HZ HT HL;
    cbn [a_page_loop]; [lia|].
  destruct (split_rect pg Hn) as (vs & after & -> & HI & HA).
  apply Forall_app in HV as [HV1 HV2].
  assert (HN1 : no_bad (BadBackground d) vs) by (intros u I; apply HN, in_or_app; auto).
  assert (HPv : place_ok c vs) by (destruct HP as (? & ? & ? & ?); unfold place_ok; auto).
  set (tl := okv after ++ tail). assert (Ex : ap_rest p = okv vs ++ tl) by (rewrite Hx, okv_app, <- app_assoc; reflexivity).
  assert (HS : stops tl).
  { unfold tl. destruct HA as [->|(rr & rest & ->)]; cbn [okv map app].
    - destruct Ht as [->|(t & ->)]; cbn; [exact I|]. exists VNewPage. auto.
    - cbn. exists (VTextRectangle rr). auto. }
  assert (HVt : forall r t, tl = Val (Ok (VTextRectangle r)) :: t -> rect_ok r).
  { intros rr t E. unfold tl in E. destruct HA as [->|(r' & rest & ->)]; cbn [okv map app] in E.
    - destruct Ht as [->|(t' & ->)]; discriminate E.
    - injection E as -> _. inversion HV2; subst. assumption. }
  assert (EH : head_rect tl = firstn 1 after).
  { unfold tl. destruct HA as [->|(r' & rest & ->)]; [|reflexivity]. destruct Ht as [->|(t & ->)]; reflexivity. }
  pose proof (Forall_inner_rect vs HI) as HIR.
  rewrite Hst, HRS, Ex. change (rs_ctx (setting d c [])) with (graphic_colors d c []).
  pose proof (graphics_out d c tl HB HS vs [] raster HI HPv HZ HN1) as GF.
  destruct (render_graphics_loop Debug d (bare (okv vs ++ tl)) (graphic_colors d c []) raster) as [[r1|e]| |] eqn:HG;
    cbn [fate bind ends] in *; try contradiction;
    (assert (DX : forall f, (exists a v b q, vs = a ++ v :: b /\ Graphics d c [] a raster q
       /\ (forall u, In u a -> Drawable d u) /\ DrawFault d c ([] ++ a) q v f) -> Fails d c (vs ++ after) raster f) by
     (intros ff X; apply Fl_here; auto; destruct X as (a & v & b & q & -> & G & F & D); now apply (Rx_draw d c _ after raster a v b q))).
  2:{ apply DX. exact GF. }
  2:{ destruct GF as [X|[(X & ->)|(e & X & ->)]]; cbn [bind]; eauto 7. }
  clear DX. rewrite (agree_graphics _ _ _ _ _ HG). cbn [bind].
  pose proof (graphics_run d c tl HB HS vs [] raster r1 HG HI HPv HZ) as GR.
  assert (HZ1 : SignSized d r1) by (apply (SignSized_same d raster); auto; now apply graphics_size in HG).
  unfold a_text_rect. rewrite HRS, Ex.
  assert (HC0 : counts_ok (setting d c [])) by (unfold counts_ok; cbn; unfold u8; lia).
  assert (GF' : no_bad (BadForeground d) vs) by (intros u I; apply (GF u I)).
  destruct (rect_out d c (0 <? rs_off_time (setting d c [])) vs tl HB HI HPv HVt HS GF' HC0)
    as [(ft & FT & ST)|(e & HE & Ha & Hb & HF & Es & Er & HK)]; rewrite EH in *.
  { assert (TX : Fails d c (vs ++ after) raster ft) by (apply Fl_here; auto; now apply (Rx_tag d c vs after raster r1)).
    destruct ft as [er| |[er|]]; cbn [rtr_stops] in ST.
    - destruct ST as (e & -> & Er). cbn [bind]. rewrite Er. cbn [bind ends]. exact TX.
    - destruct ST.
    - destruct ST as (-> & e & -> & Er). cbn [bind]. rewrite Er. cbn [bind ends]. eauto 7.
    - rewrite ST. cbn [bind ends]. auto. }
  rewrite (agree_rtr _ _ _ _ _ _ _ _ HE), HE. cbn [bind]. rewrite Er, Es. clear HE.
  destruct (spans_on d c vs r1 HB HPv HR HZ1) as [HO HM].
  pose proof (text_out d (texts d c [] vs) r1 HB HF HO HM HZ1) as TO.
  destruct (render_text_spans Debug d (texts d c [] vs) r1) as [[r3|e3]| |] eqn:HTS; cbn [fate bind ends] in *; try contradiction;
    (assert (TX : forall f, TextFails d (texts d c [] vs) f -> Fails d c (vs ++ after) raster f) by
      (intros ff X; apply Fl_here; auto; now apply (Rx_text d c vs after raster r1))).
  2:{ auto. }
  2:{ destruct TO as [X|[(X & ->)|(e3 & X & ->)]]; cbn [bind]; eauto 7. }
  clear TX. rewrite (agree_text_spans _ _ _ _ HTS). cbn [bind].
  assert (HACC : Accepted d c vs r1 r3).
  { split; [apply text_shown; auto|]. splits; try tauto.
    - intros u I. split; [now apply GF|now apply Hb].
    - eapply NoFault_app; eauto. }
  assert (HZ3 : SignSized d r3) by (apply (SignSized_same d r1); auto; now apply text_spans_size in HTS).
  cbv zeta. unfold MAX_TEXT_RECTANGLES.
  destruct (Z.ltb_spec 50 (Z.of_nat (text_rects (pl_upto c)) + 1)) as [L|L].
  { cbn [ends]. apply Fl_here; auto. apply (Rx_many d c vs after raster r1 r3); auto. lia. }
  destruct HA as [->|(rr & rest & ->)].
  - assert (HSt : a_state e <> PsOn false) by (unfold tl in HK; destruct Ht as [->|(t & ->)]; exact HK).
    destruct f; [lia|]. rewrite !a_page_loop_stop by exact HSt. cbn [ends].
    rewrite app_nil_r. split; [now apply Rd_last with (q := r1)|]. intros r I. exfalso. exact (HIR r I).
  - unfold tl in HK. cbn [okv map app] in HK. destruct HK as (HGR & HEF & HS1 & HR1 & HRS1).
    set (c' := mkPlace (pl_earlier c) (pl_page c) (pl_upto c ++ vs ++ [VTextRectangle rr]) _) in HRS1.
    inversion HV2 as [|? ? HVr HVrest]; subst.
    assert (EN : Z.of_nat (text_rects (pl_upto c)) + 1 = Z.of_nat (text_rects (pl_upto c'))).
    { cbn [c' pl_upto]. rewrite !text_rects_app, (inner_rects vs HI). cbn. lia. }
    rewrite EN in *.
    pose proof (IH c' (mkAP (a_rs e) (a_state e) (a_rest e)) r3 rest tail) as X. cbn [ap_rs ap_state ap_rest] in X.
    assert (Y : ends (a_page_loop Debug d f (Z.of_nat (text_rects (pl_upto c'))) (mkAP (a_rs e) (a_state e) (a_rest e)) r3)
      (a_page_loop Release d f (Z.of_nat (text_rects (pl_upto c'))) (mkAP (a_rs e) (a_state e) (a_rest e)) r3)
      (fun _ q => Rendered d (Accepted d) c' rest r3 q /\ forall r, In (VTextRectangle r) rest -> measurable d r) (Fails d c' rest r3)).
    { apply X; auto.
      - destruct HP as (P1 & P2 & P3 & P4). destruct HPv as (_ & _ & _ & P5).
        unfold place_ok. cbn [pl_earlier pl_page pl_upto c']. splits; auto. rewrite !Forall_app. splits; auto.
      - intros J. apply Hn, in_or_app. right. now right.
      - intros u J. apply HN, in_or_app. right. now right.
      - cbn [pl_rect c']. now apply rect_in_good.
      - lia.
      - lia. }
    assert (FN : forall ff, Fails d c' rest r3 ff -> Fails d c (vs ++ VTextRectangle rr :: rest) raster ff).
    { intros ff FF. apply Fl_next with (q := r1) (q' := r3); auto. lia. }
    destruct (a_page_loop Debug d f _ _ r3) as [[p2 [q|er]]| |]; cbn [ends] in *; auto.
    2:{ destruct Y as [Y|[(Y & ->)|(er & a & Y & ->)]]; eauto 7. }
    destruct Y as [Y1 Y2]. split; [now apply Rd_rect with (q := r1) (q' := r3)|].
    intros r I. apply in_app_or in I as [I|[I|I]]; [exfalso; exact (HIR r I)|congruence|auto].
Qed.

(** ** Pages *)

(** What is read: values and errors, up to the end or up to a panic. *)
Definition tailed (xs : Outcomes) (rest : list (result Value SyntaxError)) (cut : bool) : Prop :=
  exists more, xs = map Val rest ++ more /\ if cut then exists us, more = Panic :: us else more = [].

Lemma tailed_nil xs cut : tailed xs [] cut -> if cut then exists us, xs = Panic :: us else xs = [].
Proof. intros (more & -> & H). cbn. exact H. Qed.

Lemma tailed_cons xs x rest cut : tailed xs (x :: rest) cut <-> exists ys, xs = Val x :: ys /\ tailed ys rest cut.
Proof.
  split.
  - intros (more & -> & H). cbn. eexists. split; auto. exists more. auto.
  - intros (ys & -> & more & -> & H). exists more. auto.
Qed.

Lemma check_cases d : forall rest cut xs, tailed xs rest cut ->
  (exists c, check_unsupported d (bare xs) = Val (Ok c))
  \/ (exists vs x t e, rest = map Ok vs ++ x :: t /\ no_page_break vs /\ Forall (Supports d) vs /\ Refused d x e
        /\ check_unsupported d (bare xs) = Val (Err e))
  \/ (cut = true /\ check_unsupported d (bare xs) = Panic
        /\ exists vs, rest = map Ok vs /\ no_page_break vs /\ Forall (Supports d) vs).
Proof.
  induction rest as [|x rest IH]; intros cut xs H.
  { apply tailed_nil in H. destruct cut.
    - destruct H as (us & ->). right. right. splits; auto. exists []. splits; auto. intros [].
    - subst xs. left. eexists. reflexivity. }
  apply tailed_cons in H as (ys & -> & H). cbn [bare map check_unsupported]. fold (bare ys).
  destruct x as [v|e']; cbn [try].
  2:{ right. left. exists [], (Err e'), rest, e'. splits; auto; [intros []|constructor]. }
  assert (HN : value_tag v <> Some TNp -> Supports d v -> forall m : M (result unit SyntaxError),
    ((exists c, m = Val (Ok c))
     \/ (exists vs x t e, rest = map Ok vs ++ x :: t /\ no_page_break vs /\ Forall (Supports d) vs /\ Refused d x e
           /\ m = Val (Err e))
     \/ (cut = true /\ m = Panic /\ exists vs, rest = map Ok vs /\ no_page_break vs /\ Forall (Supports d) vs)) ->
    (exists c, m = Val (Ok c))
     \/ (exists vs x t e, Ok v :: rest = map Ok vs ++ x :: t /\ no_page_break vs /\ Forall (Supports d) vs /\ Refused d x e
           /\ m = Val (Err e))
     \/ (cut = true /\ m = Panic /\ exists vs, Ok v :: rest = map Ok vs /\ no_page_break vs /\ Forall (Supports d) vs)).
  { intros HT HS m [C|[(vs & x & t & e & -> & Hn & HF & HR & E)|(C & E & vs & -> & Hn & HF)]]; [now left|right; left|right; right].
    - exists (v :: vs), x, t, e. splits; auto. intros [->|HI]; [now apply HT|exact (Hn HI)].
    - splits; auto. exists (v :: vs). splits; auto. intros [->|HI]; [now apply HT|exact (Hn HI)]. }
  destruct (value_tag v) as [t|] eqn:ET.
  - destruct (negb _) eqn:EN.
    + right. left. eexists [], (Ok v), rest, _. splits; auto; [intros []|]. apply value_tag_iff in ET.
      apply (Rf_tag d v t ET). intros L. apply contains_lists in L. rewrite L in EN. discriminate EN.
    + apply negb_false_iff in EN.
      assert (Supports d v) as HS.
      { intros t' Ht'. apply value_tag_iff in Ht'. rewrite ET in Ht'. injection Ht' as <-. exact EN. }
      destruct (tag_bit t =? tag_bit TNp) eqn:EB; [left; eauto|].
      apply HN; auto. intros [= ->]. cbn in EB. discriminate.
  - apply HN; auto; [discriminate|]. intros t' Ht'. apply value_tag_iff in Ht'. congruence.
Qed.

Definition ctx_of (d : Dms) (rs : RenderState) : Prop := exists fg bg, rs_ctx rs = colors d fg bg.

Lemma set_background_cases d ctx fg bg c v : Built d -> ctx = colors d fg bg -> match c with Some x => color_bytes x | None => True end ->
  (exists fg' bg', set_background ctx c v = (colors d fg' bg', Ok tt)) /\ (forall x, c = Some x -> ~ Unshown d x)
  \/ (exists x, c = Some x /\ Unshown d x /\ set_background ctx c v = (ctx, Err (SUnsupportedTagValue (display v)))).
Proof.
  intros HB -> HC. unfold set_background. destruct c as [c|].
  - destruct (ctx_rgb (colors d fg bg) c) eqn:E.
    + left. split; [eexists; eexists; reflexivity|]. intros x [= <-] U.
      apply (unshown_iff d fg bg c HB HC) in U. congruence.
    + right. exists c. splits; auto. now apply (unshown_iff d fg bg c HB HC).
  - left. split; [eexists; eexists; reflexivity|]. discriminate.
Qed.

Lemma update_cause d tail : Built d -> (tail = [] \/ exists r, tail = Val (Ok VNewPage) :: r) ->
  forall vs rs rs' u, no_page_break vs -> Forall value_ok vs -> ctx_of d rs ->
  update_page_loop (rs_new d) (bare (okv vs ++ tail)) rs = Val (rs', u) ->
  match u with
  | Ok _ => no_bad (BadBackground d) vs
  | Err e => exists a v b, vs = a ++ v :: b /\ no_bad (BadBackground d) a /\ BadBackground d v
      /\ e = SUnsupportedTagValue (display v)
  end.
Proof.
  intros HB Ht. induction vs as [|v vs IH]; intros rs rs' u Hn HV (fg & bg & HC) H.
  - cbn [okv map app] in H. destruct Ht as [->|[r ->]]; cbn in H; injection H as <- <-; intros w [].
  - assert (no_page_break vs) as Hn' by (intros HI; apply Hn; now right).
    inversion HV as [|? ? Hv HV']; subst.
    cbn [okv map app bare] in H. cbn [update_page_loop bind] in H. fold (bare (okv vs ++ tail)) in H.
    assert (HG : forall rs1, ctx_of d rs1 -> ~ BadBackground d v ->
       update_page_loop (rs_new d) (bare (okv vs ++ tail)) rs1 = Val (rs', u) ->
       match u with
       | Ok _ => no_bad (BadBackground d) (v :: vs)
       | Err e => exists a w b, v :: vs = a ++ w :: b /\ no_bad (BadBackground d) a /\ BadBackground d w
           /\ e = SUnsupportedTagValue (display w)
       end).
    { intros rs1 C1 N1 K. pose proof (IH rs1 rs' u Hn' HV' C1 K) as X. destruct u as [u|e].
      - now apply no_bad_cons.
      - destruct X as (a & w & b & -> & Ha & Hw & ->). exists (v :: a), w, b. splits; auto. now apply no_bad_cons. }
    assert (CX : ctx_of d rs) by (exists fg, bg; auto).
    destruct v; try (apply (HG rs); [exact CX|intros B; inversion B|exact H]).
    + destruct (set_background_cases d (rs_ctx rs) fg bg c (VColorBackground c) HB HC) as [((f' & b' & E) & NU)|(x & -> & U & E)].
      { destruct c; auto. }
      * rewrite E in H. eapply HG; [| |exact H]; [exists f', b'; reflexivity|].
        intros B. inversion B; subst. eapply NU; eauto.
      * rewrite E in H. injection H as <- <-. exists [], (VColorBackground (Some x)), vs. splits; auto; [intros ? []|now constructor].
    + exfalso. apply Hn. now left.
    + destruct (set_background_cases d (rs_ctx rs) fg bg c (VPageBackground c) HB HC) as [((f' & b' & E) & NU)|(x & -> & U & E)].
      { destruct c; auto. }
      * rewrite E in H. eapply HG; [| |exact H]; [exists f', b'; reflexivity|].
        intros B. inversion B; subst. eapply NU; eauto.
      * rewrite E in H. injection H as <- <-. exists [], (VPageBackground (Some x)), vs. splits; auto; [intros ? []|now constructor].
    + eapply HG; [| |exact H]; [exists fg, bg; exact HC|intros B; inversion B].
Qed.

Lemma okv_cut cut vs rest tail : tailed (okv vs ++ tail) rest cut ->
  (tail = [] \/ exists t, tail = Val (Ok VNewPage) :: t) ->
  exists t, tailed tail t cut /\ rest = map Ok vs ++ t.
Proof.
  intros H HT. revert rest H. induction vs as [|v vs IH]; intros rest H; cbn [okv map app] in H.
  - exists rest. auto.
  - destruct rest as [|x rest].
    + apply tailed_nil in H. destruct cut; [destruct H|]; discriminate.
    + apply tailed_cons in H as (ys & E & H). injection E as <- <-. apply IH in H as (t & H & ->). exists t. auto.
Qed.

Lemma values_ok_tailed xs rest cut : tailed xs rest cut -> values_ok xs -> forall v, In (Ok v) rest -> value_ok v.
Proof. intros (more & -> & _) H v I. apply H. apply in_or_app. left. apply in_map_iff. eauto. Qed.

Lemma update_total ds tail : (tail = [] \/ exists r, tail = Val (Ok VNewPage) :: r) -> forall vs rs,
  exists x, update_page_loop ds (bare (okv vs ++ tail)) rs = Val x.
Proof.
  intros Ht. induction vs as [|v vs IH]; intros rs; cbn [okv map app bare].
  - destruct Ht as [->|(r & ->)]; cbn; eauto.
  - fold (okv vs). fold (bare (okv vs ++ tail)). cbn [update_page_loop bind].
    destruct v; try apply IH; try (destruct (set_background _ _ _) as [ctx [u|e]]; [apply IH|eauto]); eauto.
Qed.

Lemma first_tailed d pg tail rest cut : no_page_break pg -> PageTail d tail -> tailed (okv pg ++ tail) rest cut ->
  FirstPage rest pg /\ (cut = true -> rest <> map Ok pg)
  /\ forall r, rest = map Ok pg ++ Ok VNewPage :: r -> Supports d VNewPage.
Proof.
  intros Hn HT HX. apply okv_cut in HX as (t & HX & ->); [|eapply PageTail_weak; eauto].
  destruct HT as [->|(r' & -> & HNp)].
  - destruct t as [|x t]; [|apply tailed_cons in HX as (ys & E & _); discriminate].
    apply tailed_nil in HX. destruct cut; [destruct HX; discriminate|]. splits.
    + split; auto. left. apply app_nil_r.
    + discriminate.
    + intros r E. apply app_inv_head in E. discriminate.
  - destruct t as [|x t].
    { apply tailed_nil in HX. destruct cut; [destruct HX|]; discriminate. }
    apply tailed_cons in HX as (ys & E & HX). injection E as <- <-. splits; auto.
    + split; eauto.
    + intros _ E. apply (f_equal (@List.length _)) in E. rewrite app_length in E. cbn in E. lia.
Qed.

Lemma on_page_out d before p :
  Built d -> Forall value_ok before -> come d before (ap_rs p) -> values_ok (ap_rest p) ->
  check_unsupported d (bare (ap_rest p)) <> Hang ->
  ends (a_on_page Debug d p) (a_on_page Release d p)
    (fun p' P => forall pg tail, ap_rest p = okv pg ++ tail -> no_page_break pg ->
       (tail = [] \/ exists t, tail = Val (Ok VNewPage) :: t) -> PageAccepted d before pg (pg_raster P))
    (fun f => forall rest cut, tailed (ap_rest p) rest cut -> RestFails d before rest cut f).
Proof.
  intros HB HV0 HC HVx HH. destruct (check_unsupported d (bare (ap_rest p))) as [k| |] eqn:HK; [clear HH| |congruence].
  2:{ unfold a_on_page. rewrite HK. cbn [bind ends]. right. left. split; [|reflexivity]. intros rest cut HX.
      destruct (check_cases d rest cut _ HX) as [(c & E)|[(vs & x & t & e & _ & _ & _ & _ & E)|(EC & E & vs & -> & Hn & HF)]];
        [congruence..|]. eapply Rs_cut; eauto. }
  destruct (a_on_page Debug d p) as [z| |] eqn:H0; pose proof H0 as H; unfold a_on_page in H;
    rewrite HK in H; cbn [bind] in H; destruct k as [[]|e];
    try (injection H as <-; cbn [ends]; intros rest cut HX;
      destruct (check_cases d rest cut _ HX) as [(c & E)|[(vs & x & t & e1 & E & Hn & HF & HR & E1)|(_ & E & _)]]; [congruence| |congruence];
      assert (e1 = e) as -> by congruence; eapply Rs_refused; eauto); try discriminate H;
    destruct (check_ok _ _ _ HK) as (pg & tail & Hx & Hn & HF & HT);
    pose proof (PageTail_weak _ _ HT) as HT';
    rewrite Hx in HVx;
    apply values_ok_app in HVx as [HVpg _];
    (assert (FP : forall rest cut, tailed (ap_rest p) rest cut -> FirstPage rest pg /\ (cut = true -> rest <> map Ok pg)
        /\ forall r, rest = map Ok pg ++ Ok VNewPage :: r -> Supports d VNewPage) by
     (intros rest cut HX; rewrite Hx in HX; apply (first_tailed d pg tail); auto));
    unfold update_page_state in H; rewrite Hx in H;
    match type of H with context [update_page_loop _ _ ?s0] => destruct (update_total (rs_new d) tail HT' pg s0) as ([rs u] & HUp0) end;
    rewrite HUp0 in H; cbn [bind] in H;
    pose proof HUp0 as HUr; pose proof HUp0 as HUp; (apply (update_cause d tail HB HT' pg) in HUp; auto;
      [|destruct HC as (c0 & ws & E & _); unfold ctx_of; cbn; rewrite E; eexists; eexists; reflexivity]);
    destruct u as [[]|e];
    try (injection H as <-; cbn [ends]; intros rest cut HX; destruct HUp as (a & v & b & -> & Ha & Hv & ->);
      destruct (FP rest cut HX) as (FP1 & FP2 & FP3);
      apply (Rs_page d before rest cut (a ++ v :: b)); auto; eapply Pf_background; eauto); try discriminate H;
    (apply update_loop_ok in HUp0; auto; destruct HUp0 as [_ HRS]);
    (assert (rs = setting d (mkPlace before pg [] (sign_rect d)) []) as ERS by
      (rewrite <- (page_start_setting d before _ pg HC), HRS; reflexivity));
    clear HRS; subst rs;
    (assert (LO := loop_out d HB 52 (mkPlace before pg [] (sign_rect d))
             (mkAP (setting d (mkPlace before pg [] (sign_rect d)) []) (PsOn false) (okv pg ++ tail))
             (build_raster (setting d (mkPlace before pg [] (sign_rect d)) [])) pg tail));
    cbn [ap_rs ap_state ap_rest] in LO;
    (assert (LO' : place_ok (mkPlace before pg [] (sign_rect d)) []) by (unfold place_ok; cbn; splits; auto));
    specialize (LO eq_refl eq_refl LO' eq_refl Hn HVpg HT' HUp (rect_in_sign d HB) (conj eq_refl eq_refl) ltac:(cbn; lia) ltac:(cbn; lia));
    change (build_raster (setting d (mkPlace before pg [] (sign_rect d)) [])) with
      (with_color (sign_width_pixels (d_vms_cfg d)) (sign_height_pixels (d_vms_cfg d)) (page_background d before pg)) in *;
    change (Z.of_nat (text_rects (pl_upto (mkPlace before pg [] (sign_rect d))))) with 0 in LO;
    destruct (a_page_loop Debug d 52 0 _ _) as [[p1 [q|e]]| |]; cbn [bind ends] in *; try contradiction; try discriminate H;
    try (injection H as <-); cbn [ends].
  - intros pg' tl Hx' Hn' Ht'.
    assert (pg' = pg) as ->.
    { rewrite Hx in Hx'. apply okv_split in Hx'; auto. symmetry. tauto. }
    apply on_page_ok in H0 as (pg'' & tl'' & Hx'' & Hn'' & _ & HT'' & _ & HN & _).
    assert (pg'' = pg) as ->.
    { rewrite Hx in Hx''. apply okv_split in Hx''; auto; [symmetry; tauto|]. eapply PageTail_weak; eauto. }
    unfold PageAccepted. splits; auto; try tauto. lia.
  - intros rest cut HX. destruct (FP rest cut HX) as (FP1 & FP2 & FP3). apply (Rs_page d before rest cut pg); auto. now apply Pf_rect.
  - unfold a_on_page. rewrite HK. cbn [bind]. unfold update_page_state. rewrite Hx, HUr. cbn [bind].
    change (build_raster (setting d (mkPlace before pg [] (sign_rect d)) [])) with
      (with_color (sign_width_pixels (d_vms_cfg d)) (sign_height_pixels (d_vms_cfg d)) (page_background d before pg)).
    assert (PX : forall f, Fails d (mkPlace before pg [] (sign_rect d)) pg
       (with_color (sign_width_pixels (d_vms_cfg d)) (sign_height_pixels (d_vms_cfg d)) (page_background d before pg)) f ->
       forall rest cut, tailed (okv pg ++ tail) rest cut -> RestFails d before rest cut f).
    { intros f LF rest cut HX. rewrite Hx in FP. destruct (FP rest cut HX) as (FP1 & FP2 & FP3). apply (Rs_page d before rest cut pg); auto. now apply Pf_rect. }
    destruct LO as [X|[(X & ->)|(e & a & X & ->)]]; cbn [bind]; [left; apply PX, X|right; left; split; [apply PX, X|reflexivity]|].
    right. right. exists e, a. split; [apply PX, X|reflexivity].
Qed.

(** ** Messages *)

Lemma accepted_pages d ms ps : Built d -> Yields Debug d ms (map Ok ps) ->
  PagesShow d (PageAccepted d) ms ps.
Proof.
  intros HB H.
  refine (pages_show Debug d (fun before rs => Forall value_ok before /\ come d before rs) value_ok _ _ _ ms ps _ _ H).
  - intros before p p' P pg tail [HV0 HC] Hx Hn Ht HV HO.
    assert (HVx : Forall value_ok pg).
    { apply Forall_forall. intros v I. apply HV. rewrite Hx. apply in_or_app. left. unfold okv. apply in_map_iff. eauto. }
    destruct (on_page_shown d before p p' P pg tail HB HV0 HC HV Hx Hn Ht HO) as (_ & _ & KA).
    splits; auto; [|apply Forall_app; auto|now apply come_after].
    assert (exists k, check_unsupported d (bare (ap_rest p)) = Val k) as (k & HK).
    { unfold a_on_page in HO. destruct (check_unsupported d (bare (ap_rest p))); [eauto|discriminate HO..]. }
    pose proof (on_page_out d before p HB HV0 HC HV) as X. rewrite HK in X. specialize (X ltac:(discriminate)). rewrite HO in X. exact (X pg tail Hx Hn Ht).
  - auto.
  - split; [constructor|apply come_new].
  - intros vs HM. eapply Meaning_oks_ok; eauto.
Qed.

(** How the iterator stops in debug builds: with an error, or with a panic where a
    release build does [r]; and the faults that make it do so. *)
Inductive Stop := StError (e : SyntaxError) | StPanic (r : M (option (result Page SyntaxError) * AP)).

Definition caused (x : Stop) (f : Fault) : Prop :=
  match x with
  | StError e => f = Reported e
  | StPanic r => f = Overflow None \/ (f = Crash /\ r = Panic)
      \/ (exists e p, f = Overflow (Some e) /\ r = Val (Some (Err e), p))
  end.

(** The pages [ps] are given, and then the iterator stops. *)
Inductive a_ends (d : Dms) : AP -> list Page -> Stop -> Prop :=
| Ae_error p e p' : a_next Debug d p = Val (Some (Err e), p') -> a_ends d p [] (StError e)
| Ae_crash p : a_next Debug d p = Panic -> a_ends d p [] (StPanic (a_next Release d p))
| Ae_page p P p' ps f : a_next Debug d p = Val (Some (Ok P), p') -> a_ends d p' ps f -> a_ends d p (P :: ps) f.

Lemma take_error d : forall ps n p e l, a_take Debug d n p = Val (map Ok ps ++ Err e :: l) -> a_ends d p ps (StError e).
Proof.
  induction ps as [|P ps IH]; intros [|n] p e l H; cbn [a_take map app] in H; try discriminate H.
  - destruct (a_next Debug d p) as [[[x|] p']| |] eqn:E; cbn [bind] in H; try discriminate H.
    apply bind_val in H as (l' & _ & H). injection H as -> _. eapply Ae_error; eauto.
  - destruct (a_next Debug d p) as [[[x|] p']| |] eqn:E; cbn [bind] in H; try discriminate H.
    apply bind_val in H as (l' & HL & H). injection H as -> ->. eapply Ae_page; eauto.
Qed.

Lemma take_crash d : forall ps p, a_take Debug d (List.length ps) p = Val (map Ok ps) ->
  a_take Debug d (S (List.length ps)) p = Panic ->
  exists r, a_ends d p ps (StPanic r) /\ (r = Panic -> a_take Release d (S (List.length ps)) p = Panic)
    /\ forall e p', r = Val (Some (Err e), p') -> a_take Release d (S (List.length ps)) p = Val (map Ok ps ++ [Err e]).
Proof.
  induction ps as [|P ps IH]; intros p H H'.
  - cbn [List.length a_take] in H'. destruct (a_next Debug d p) as [[[x|] p']| |] eqn:E; cbn [bind] in H'; try discriminate H'.
    exists (a_next Release d p). split; [now apply Ae_crash|]. cbn [List.length a_take].
    split; [intros ->; reflexivity|]. intros e p' ->. reflexivity.
  - cbn [List.length] in *. remember (S (List.length ps)) as n. cbn [a_take] in H'. subst n. cbn [a_take map] in H.
    destruct (a_next Debug d p) as [[[x|] p']| |] eqn:E; cbn [bind] in H, H'; try discriminate.
    apply bind_val in H as (l' & HL & H). injection H as -> ->. destruct (IH p' HL) as (r & A & B & C).
    { destruct (a_take Debug d (S (List.length ps)) p'); auto; discriminate H'. }
    exists r. split; [eapply Ae_page; eauto|].
    remember (S (List.length ps)) as n. cbn [a_take]. rewrite (agree_next _ _ _ E). cbn [bind].
    split; [intros X; rewrite (B X); reflexivity|]. intros e q X. rewrite (C e q X). reflexivity.
Qed.

Lemma fail_ends d : Built d -> forall n before p rest cut ps x, (List.length ps < n)%nat ->
  tailed (ap_rest p) rest cut -> (exists b, ap_state p = PsOn b) -> values_ok (ap_rest p) ->
  kept d before (ap_rs p) -> come d before (ap_rs p) -> Forall value_ok before ->
  a_ends d p ps x ->
  exists f, caused x f /\
  exists pgs rest', rest = map Ok (closed pgs) ++ rest' /\ Forall no_page_break pgs /\ Forall (Supports d) (closed pgs)
    /\ EachPage d (PageAccepted d) before pgs ps /\ RestFails d (before ++ List.concat pgs) rest' cut f.
Proof.
  intros HB n. induction n as [|n IH]; [lia|].
  intros before p rest cut ps f LN HR [b Hst] HVx HK HC HV0 H.
  assert (HH : check_unsupported d (bare (ap_rest p)) <> Hang).
  { destruct (check_cases d rest cut _ HR) as [(c & ->)|[(vs & x & t & e & _ & _ & _ & _ & ->)|(_ & -> & _)]]; discriminate. }
  pose proof (on_page_out d before p HB HV0 HC HVx HH) as HO.
  assert (HS : forall f, RestFails d before rest cut f ->
    exists pgs rest', rest = map Ok (closed pgs) ++ rest' /\ Forall no_page_break pgs /\ Forall (Supports d) (closed pgs)
      /\ EachPage d (PageAccepted d) before pgs [] /\ RestFails d (before ++ List.concat pgs) rest' cut f).
  { intros f0 X. exists [], rest. cbn. rewrite app_nil_r. splits; auto. constructor. }
  destruct H as [p e p' HN|p HN|p pic p2 ps f HN HL]; unfold a_next in HN; rewrite Hst in HN.
  { apply bind_val in HN as ([p2 rp] & HP & HN). cbn [fst snd] in HN. injection HN as -> <-. rewrite HP in HO. cbn [ends] in HO. exists (Reported e). split; [reflexivity|auto]. }
  { destruct (a_on_page Debug d p) as [z| |]; try discriminate HN. cbn [ends] in HO. unfold a_next. rewrite Hst.
    destruct HO as [X|[(X & ->)|(e & a & X & ->)]]; cbn [bind caused fst snd].
    - exists (Overflow None). split; [auto|]. apply HS, X, HR.
    - exists Crash. split; [auto|]. apply HS, X, HR.
    - exists (Overflow (Some e)). split; [eauto 7|]. apply HS, X, HR. }
  apply bind_val in HN as ([p2' rp] & HP & HN). cbn [fst snd] in HN. injection HN as -> ->. rewrite HP in HO. cbn [ends] in HO.
  pose proof HP as HP0.
  apply on_page_ok in HP as (pg & tail & Hx & Hn & HF & HT & _ & _ & [_ PS PR PE] & HD & _ & _).
  pose proof (PageTail_weak _ _ HT) as HT'.
  specialize (HO pg tail Hx Hn HT').
  destruct (on_page_shown d before p p2 pic pg tail HB HV0 HC HVx Hx Hn HT' HP0) as (_ & _ & KA).
  apply come_after in KA.
  pose proof (kept_start d before _ pg HK) as HK1. pose proof (kept_same d _ _ _ PS HK1) as HK2.
  pose proof (kept_page _ _ _ _ HK2) as KB.
  destruct HK1 as [HT1 _]. pose proof HK2 as [HT2 _].
  assert (KD : pg_duration pic = fst (times_of d (before ++ pg))) by (rewrite <- HT1; exact HD).
  set (off := snd (times_of d (before ++ pg))) in *.
  assert (EOFF : rs_off_time (page_start d (ap_rs p) pg) = off) by (unfold off; rewrite <- HT1; reflexivity).
  assert (KO : rs_off_time (ap_rs p2) = off) by (unfold off; rewrite <- HT2; reflexivity).
  rewrite EOFF in PE.
  assert (HVpg : Forall value_ok (before ++ pg)).
  { apply Forall_app. split; auto. rewrite Hx in HVx. now apply values_ok_app in HVx as [? _]. }
  assert (RL : rs_rect (ap_rs p2) = last_rect d pg) by (apply (last_rect_is Debug); auto; now apply Forall_app in HVpg as [_ ?]).
  assert (Hcase :
    (ap_state p2 = done (0 <? off)) \/
    (exists rest2, tailed (ap_rest p2) rest2 cut /\ rest = map Ok (pg ++ [VNewPage]) ++ rest2
       /\ ap_state p2 = new_page (0 <? off) /\ values_ok (ap_rest p2)
       /\ Supports d VNewPage)).
  { destruct PE as [(E1 & E2 & E3)|(E1 & E3)]; [left; auto|]. right.
    rewrite E1 in HR, HVx. apply okv_cut in HR as (t & HR & ->); [|eauto]. destruct t as [|x t].
    { apply tailed_nil in HR. destruct cut; [destruct HR|]; discriminate. }
    apply tailed_cons in HR as (ys & E & HR). injection E as <- <-. exists t. splits; auto.
    - rewrite map_app. cbn. now rewrite <- app_assoc.
    - intros v I. apply HVx. apply in_or_app. right. now right.
    - destruct HT as [ET|(r & _ & HNp)]; auto. exfalso. rewrite E1 in Hx. subst tail. rewrite app_nil_r in Hx.
      apply Hn. assert (IX : In (Val (Ok VNewPage)) (okv pg)) by (rewrite <- Hx; apply in_elt).
      unfold okv in IX. apply in_map_iff in IX as (v & Ev & Iv). injection Ev as ->. exact Iv. }
  assert (Hgo : forall rest2 q, tailed (ap_rest q) rest2 cut -> (exists b, ap_state q = PsOn b) ->
     ap_rs q = ap_rs p2 -> rest = map Ok (pg ++ [VNewPage]) ++ rest2 -> values_ok (ap_rest q) ->
     forall ps', (List.length ps' < n)%nat -> a_ends d q ps' f ->
     (forall pgs, EachPage d (PageAccepted d) (before ++ pg) pgs ps' -> EachPage d (PageAccepted d) before (pg :: pgs) (pic :: ps)) ->
     Supports d VNewPage ->
     exists g, caused f g /\
     exists pgs rest', rest = map Ok (closed pgs) ++ rest' /\ Forall no_page_break pgs /\ Forall (Supports d) (closed pgs)
       /\ EachPage d (PageAccepted d) before pgs (pic :: ps) /\ RestFails d (before ++ List.concat pgs) rest' cut g).
  { intros rest2 q Hq1 Hq2 Hq3 E Hv2 ps' Hm HL' HE HNp.
    rewrite <- Hq3 in HK2, KA.
    destruct (IH (before ++ pg) q rest2 cut ps' f Hm Hq1 Hq2 Hv2 HK2 KA HVpg HL') as (g & CG & pgs & rest' & -> & E3 & E4 & E1 & E2).
    exists g. split; auto. exists (pg :: pgs), rest'. splits; auto.
    - rewrite E. unfold closed. cbn [map List.concat]. rewrite (map_app Ok (pg ++ [VNewPage])). now rewrite <- app_assoc.
    - unfold closed. cbn [map List.concat]. rewrite !Forall_app. splits; auto.
    - cbn [List.concat]. now rewrite app_assoc. }
  destruct (Z.ltb_spec 0 off) as [EO|EO].
  - assert (exists m, ap_state p2 = PsOff m) as [mm Est].
    { destruct Hcase as [->|(rest2 & _ & _ & -> & _ & _)]; cbn; eauto. }
    cbn [List.length] in LN.
    inversion HL as [? ? ? HN|? HN|? Q p3 ps1 ? HN HL1]; subst; unfold a_next in HN; rewrite Est in HN; try discriminate HN.
    injection HN as <- <-. cbn [List.length] in LN.
    destruct Hcase as [E3|(rest2 & E2 & E4 & E3 & HV' & HNp)]; cbn in E3; rewrite E3 in Est; injection Est as <-; cbn [next_state] in HL1.
    + exfalso. inversion HL1; discriminate.
    + refine (Hgo rest2 _ _ _ _ E4 _ ps1 _ HL1 _ HNp); [exact E2|cbn; eauto|reflexivity|exact HV'|lia|].
      intros pgs HE. apply Ep_on_off; auto; cbn [pg_duration pg_raster]; [cbn; now rewrite <- RL..|].
      intros x y _ _. unfold build_raster. rewrite <- KB. reflexivity.
  - cbn [List.length] in LN. destruct Hcase as [E3|(rest2 & E2 & E4 & E3 & HV' & HNp)]; cbn in E3.
    + exfalso. inversion HL as [? ? ? HN|? HN|? Q p3 ps1 ? HN HL1]; subst; unfold a_next in HN; rewrite E3 in HN; discriminate HN.
    + refine (Hgo rest2 p2 _ _ _ E4 HV' ps _ HL _ HNp); [exact E2|eauto|reflexivity|lia|].
      intros pgs HE. apply Ep_on; auto.
Qed.

Lemma denotes_vals ts rs : Forall2 TokenDenotes ts rs -> map try_from ts = map Val rs.
Proof. induction 1 as [|t r ts rs H HD IH]; cbn [map]; auto. now rewrite (TokenDenotes_try _ _ H), IH. Qed.

Lemma reading_reads ms rs cut : Reading ms rs cut -> exists xs, Reads (ms_new ms) xs /\ tailed xs rs cut.
Proof.
  intros (ts & more & HT & HD & HC). exists (map try_from (ts ++ more)). split; [apply Reads_new; auto|].
  exists (map try_from more). rewrite map_app, (denotes_vals _ _ HD). split; auto.
  destruct cut; [|now subst more]. destruct HC as (t & us & -> & HP). cbn. rewrite (PanicToken_try _ HP). eauto.
Qed.

Lemma reading_exists ms : exists rs cut, Reading ms rs cut.
Proof.
  destruct (Tokens_exists ms) as (ts & HT).
  assert (exists a more rs cut, ts = a ++ more /\ Forall2 TokenDenotes a rs
    /\ if cut : bool then exists t us, more = t :: us /\ PanicToken t else more = []) as (a & more & rs & cut & -> & HD & HC).
  { assert (HTT := Tokens_Token _ _ HT). clear HT. induction HTT as [|t ts (rest & Ht) HTT IH].
    - exists [], [], [], false. splits; auto.
    - destruct (try_from_token t rest Ht) as [[HP _]|[_ (res & _ & HD)]].
      + exists [], (t :: ts), [], true. splits; eauto.
      + destruct IH as (a & more & rs & cut & -> & HDs & HC). exists (t :: a), more, (res :: rs), cut. splits; auto. }
  exists rs, cut, a, more. splits; auto.
Qed.

Lemma reading_fun ms rs cut rs' cut' : Reading ms rs cut -> Reading ms rs' cut' -> rs = rs' /\ cut = cut'.
Proof.
  intros (ts & more & HT & HD & HC) (ts' & more' & HT' & HD' & HC').
  pose proof (Tokens_unique _ _ _ HT HT') as E. clear HT HT'. revert ts' rs' HD' E.
  assert (X : forall t res, TokenDenotes t res -> PanicToken t -> False).
  { intros t res H H'. apply TokenDenotes_try in H. apply PanicToken_try in H'. congruence. }
  induction HD as [|t r ts rs H HD IH]; intros ts' rs' HD' E; destruct HD' as [|t' r' ts' rs' H' HD']; cbn [app] in E.
  - split; auto. subst more'. destruct cut, cut'; auto.
    + destruct HC as (? & ? & -> & _). discriminate.
    + destruct HC' as (? & ? & -> & _). discriminate.
  - exfalso. subst more. destruct cut; [|discriminate]. destruct HC as (t & us & [= <- _] & HP). eauto.
  - exfalso. subst more'. destruct cut'; [|discriminate]. destruct HC' as (t' & us & [= <- _] & HP). eauto.
  - injection E as <- E. destruct (IH _ _ HD' E) as [-> ->].
    apply TokenDenotes_try in H, H'. split; congruence.
Qed.

Lemma meaning_reading ms rs : Meaning ms rs <-> Reading ms rs false.
Proof.
  split.
  - intros (ts & HT & HD). exists ts, []. rewrite app_nil_r. auto.
  - intros (ts & more & HT & HD & ->). rewrite app_nil_r in HT. exists ts. auto.
Qed.

Lemma stop_message d ms xs ps x : Built d -> Reads (ms_new ms) xs ->
  a_ends d (a_start d xs) ps x -> exists f, caused x f /\ MessageStops d ms ps f.
Proof.
  intros HB HX H. destruct (reading_exists ms) as (rs & cut & HM).
  destruct (reading_reads ms rs cut HM) as (xs' & HX' & HT).
  rewrite (Reads_fun _ _ _ HX HX') in H. clear xs HX.
  assert (HV : values_ok xs').
  { intros v I. pose proof (Reads_outcome _ _ HX') as RO. rewrite Forall_forall in RO.
    destruct (RO _ I) as [X|(r & E & HR)]; [discriminate|]. injection E as <-. exact HR. }
  destruct (fail_ends d HB (S (List.length ps)) [] (a_start d xs') rs cut ps x) as (f & CF & pgs & rest & -> & H3 & H4 & H1 & H2); auto.
  - exists true. reflexivity.
  - apply kept_new.
  - apply come_new.
  - exists f. split; auto. exists pgs, rest, cut. splits; auto.
Qed.

Lemma fail_message d n ms ps e l : Built d ->
  pages_take Debug d n (pages_new d ms) = Val (map Ok ps ++ Err e :: l) -> MessageFails d ms ps e.
Proof.
  intros HB H. destruct (Reads_exists ms) as (xs & HX). rewrite (take_start Debug d n ms _ HX) in H.
  destruct (stop_message d ms xs ps (StError e) HB HX) as (f & -> & X); [eapply take_error; eauto|exact X].
Qed.

(** Where a debug build panics, and what a release build does there. *)
Lemma release_message d ms ps : Built d ->
  pages_take Debug d (List.length ps) (pages_new d ms) = Val (map Ok ps) ->
  pages_take Debug d (S (List.length ps)) (pages_new d ms) = Panic ->
  exists f, MessageStops d ms ps f /\ panics f
    /\ (f = Crash -> pages_take Release d (S (List.length ps)) (pages_new d ms) = Panic)
    /\ forall e, f = Overflow (Some e) -> pages_take Release d (S (List.length ps)) (pages_new d ms) = Val (map Ok ps ++ [Err e]).
Proof.
  intros HB H H'. destruct (Reads_exists ms) as (xs & HX). rewrite (take_start Debug d _ ms _ HX) in H.
  rewrite (take_start Debug d _ ms _ HX) in H'. rewrite (take_start Release d _ ms _ HX).
  destruct (take_crash d ps (a_start d xs) H H') as (r & HE & P1 & P2).
  destruct (stop_message d ms xs ps _ HB HX HE) as (f & CF & X). exists f. split; auto.
  destruct CF as [->|[(-> & ->)|(e & p' & -> & ->)]]; splits; try (intros e0 E0; discriminate E0); auto; try discriminate.
  intros e0 E0. injection E0 as <-. eauto.
Qed.

Lemma panic_message d ms ps : Built d ->
  pages_take Debug d (List.length ps) (pages_new d ms) = Val (map Ok ps) ->
  pages_take Debug d (S (List.length ps)) (pages_new d ms) = Panic -> MessagePanics d ms ps.
Proof. intros HB H H'. destruct (release_message d ms ps HB H H') as (f & X & P & _). exists f. auto. Qed.

Lemma safe_debug d ms rs : Built d -> Usable d -> FontsInCells d -> PlaceableDefaults d ->
  Meaning ms rs -> Forall (Renderable d) (oks rs) -> Moderate d (oks rs) ->
  forall md n l, pages_take md d n (pages_new d ms) = Val l -> pages_take Debug d n (pages_new d ms) = Val l.
Proof.
  intros HB HU HF HP HM HR HO md n l H. destruct md; auto.
  destruct (safe d ms rs HB HU HF HP HM HR HO Debug n) as (l' & E).
  pose proof (take_modes d n ms l' E). congruence.
Qed.
