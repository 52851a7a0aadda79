(** Proofs about building a sign. *)

From Verif Require Import Base Str Multi Color Oer Crc Raster Font Graphic Config Sign
  Spec_Color Spec_Font Spec_Tfon Spec_Graphic Spec_Sign
  Proofs_Str Proofs_Color Proofs_Font Proofs_Glyph Proofs_Table Proofs_Graphic.
From Coq Require Import ZifyBool ZifyNat.
Ltac Zify.zify_post_hook ::= Z.div_mod_to_equations.
Open Scope list_scope.

(** ** Graphic tables *)

Lemma kept_dec w h g : kept w h g \/ ~ kept w h g.
Proof. unfold kept. destruct (Z.eq_dec (g_number g) 0); lia. Qed.

Definition keptb (w h : Z) (g : Graphic) : bool :=
  negb (g_number g =? 0) && (g_width g <=? w) && (g_height g <=? h).

Lemma keptb_spec w h g : keptb w h g = true <-> kept w h g.
Proof. unfold keptb, kept. lia. Qed.

Definition kept_nums (w h : Z) (t : GraphicTable) : list Z := map g_number (filter (keptb w h) t).

Lemma KeptNumbers_iff w h t ns : KeptNumbers w h t ns <-> ns = kept_nums w h t.
Proof.
  split.
  - unfold kept_nums. induction 1 as [|g t ns K _ IH|g t ns K _ IH]; [reflexivity| |]; cbn [filter].
    + apply keptb_spec in K. rewrite K. cbn [map]. now rewrite IH.
    + destruct (keptb w h g) eqn:B; [apply keptb_spec in B; contradiction|auto].
  - intros ->. unfold kept_nums. induction t as [|g t IH]; cbn [filter]; [constructor|].
    destruct (keptb w h g) eqn:B; cbn [map]; constructor; auto; rewrite <- keptb_spec; congruence.
Qed.


Definition slot (w h : Z) (g : Graphic) : Graphic :=
  if (w <? g_width g) || (h <? g_height g) then graphic_default else g.

Lemma slot_kept w h g : kept w h g -> slot w h g = g.
Proof. unfold kept, slot. intros H. now replace ((w <? g_width g) || (h <? g_height g)) with false by lia. Qed.

Lemma slot_not_kept w h g : ~ kept w h g -> g_number (slot w h g) = 0.
Proof.
  unfold kept, slot. intros H. destruct (Z.ltb_spec w (g_width g)); [reflexivity|].
  destruct (Z.ltb_spec h (g_height g)); cbn [orb]; [reflexivity|]. lia.
Qed.

Lemma graphics_loop_spec w h t : Forall graphic_fields t ->
  (validate_graphics (graphic_retain t w h) w h = Ok tt
   /\ forall g, In g t -> kept w h g -> valid_graphic w h g)
  \/ exists pre g post e, t = pre ++ g :: post /\ kept w h g
       /\ (forall k, In k pre -> kept w h k -> valid_graphic w h k)
       /\ GraphicVerdict w h g (Err e) /\ validate_graphics (graphic_retain t w h) w h = Err e.
Proof.
  induction t as [|g r IH]; intros Hf; [left; split; [reflexivity|contradiction]|].
  inversion Hf as [|? ? Hg Hr]; subst. specialize (IH Hr).
  unfold graphic_retain. cbn [map]. fold (graphic_retain r w h). change (if (w <? g_width g) || (h <? g_height g)
    then graphic_default else g) with (slot w h g). cbn [validate_graphics].
  destruct (kept_dec w h g) as [K|K].
  - rewrite slot_kept by auto. destruct Hg as [Un Hg']. unfold u8 in Un.
    replace (0 <? g_number g) with true by (unfold kept in K; lia).
    assert (Hg : graphic_fields g) by (split; [exact Un|exact Hg']).
    pose proof (graphic_validate_verdict g w h Hg) as V. destruct (graphic_validate g w h) as [[]|e].
    + assert (Vg : valid_graphic w h g) by (inversion V; auto).
      destruct IH as [[E A]|(pre & k & post & e & -> & Kk & A & Vk & E)].
      * left. split; [auto|]. intros g' [<-|I] K'; auto.
      * right. exists (g :: pre), k, post, e. splits; auto. intros k' [<-|I] K'; auto.
    + right. exists [], g, r, e. splits; auto. contradiction.
  - rewrite slot_not_kept by auto. cbn [Z.ltb Z.compare].
    destruct IH as [[E A]|(pre & k & post & e & -> & Kk & A & Vk & E)].
    + left. split; [auto|]. intros g' [<-|I] K'; auto. contradiction.
    + right. exists (g :: pre), k, post, e. splits; auto. intros k' [<-|I] K'; auto. contradiction.
Qed.

Lemma existsb_kept w h n t : n <> 0 ->
  (existsb (fun g => g_number g =? n) (graphic_retain t w h) = true <-> In n (kept_nums w h t)).
Proof.
  intros Hn. unfold kept_nums. rewrite existsb_exists, in_map_iff. unfold graphic_retain. split.
  - intros (g & I & E). apply in_map_iff in I. destruct I as (g0 & <- & I). exists g0.
    change (if (w <? g_width g0) || (h <? g_height g0) then graphic_default else g0) with (slot w h g0) in E.
    destruct (kept_dec w h g0) as [K|K].
    + rewrite slot_kept in E by auto. split; [lia|]. apply filter_In. now rewrite keptb_spec.
    + rewrite slot_not_kept in E by auto. lia.
  - intros (g & E & I). apply filter_In in I. rewrite keptb_spec in I. destruct I as [I K].
    exists g. split; [|lia]. apply in_map_iff. exists g. split; [|auto]. exact (slot_kept w h g K).
Qed.

Lemma graphic_numbers_spec w h t : Forall graphic_fields t ->
  (validate_graphic_numbers (graphic_retain t w h) = Ok tt /\ NoDup (kept_nums w h t))
  \/ (validate_graphic_numbers (graphic_retain t w h) = Err GDuplicateNumber /\ ~ NoDup (kept_nums w h t)).
Proof.
  induction t as [|g r IH]; intros Hf; [left; split; [reflexivity|constructor]|].
  inversion Hf as [|? ? Hg Hr]; subst. specialize (IH Hr).
  unfold graphic_retain. cbn [map]. fold (graphic_retain r w h). change (if (w <? g_width g) || (h <? g_height g)
    then graphic_default else g) with (slot w h g). cbn [validate_graphic_numbers].
  unfold kept_nums. cbn [filter].
  destruct (kept_dec w h g) as [K|K].
  - rewrite slot_kept by auto. rewrite (proj2 (keptb_spec w h g) K). cbn [map]. fold (kept_nums w h r).
    destruct Hg as [Un _]. unfold u8 in Un. replace (0 <? g_number g) with true by (unfold kept in K; lia).
    cbn [andb]. pose proof (existsb_kept w h (g_number g) r ltac:(unfold kept in K; lia)) as X.
    destruct (existsb _ (graphic_retain r w h)).
    + right. split; [reflexivity|]. intros N. inversion N as [|? ? NI _]; subst. apply NI. now apply X.
    + assert (NI : ~ In (g_number g) (kept_nums w h r)) by (intros I; apply X in I; discriminate).
      destruct IH as [[E N]|[E N]]; [left|right]; split; auto.
      * now constructor.
      * intros N'. inversion N'; subst. contradiction.
  - rewrite slot_not_kept by auto. cbn [Z.ltb Z.compare andb].
    destruct (keptb w h g) eqn:B; [apply keptb_spec in B; contradiction|]. exact IH.
Qed.

Lemma graphics_verdict w h t : Forall graphic_fields t ->
  GraphicsVerdict w h t (graphic_table_validate (graphic_retain t w h) w h).
Proof.
  intros Hf. unfold graphic_table_validate.
  destruct (graphics_loop_spec w h t Hf) as [[E A]|(pre & g & post & e & Et & K & A & V & E)]; rewrite E.
  - destruct (graphic_numbers_spec w h t Hf) as [[E' N]|[E' N]]; rewrite E'.
    + apply GTVOk. split; [auto|]. exists (kept_nums w h t). split; [now apply KeptNumbers_iff|auto].
    + apply (GTVDup w h t (kept_nums w h t)); auto. now apply KeptNumbers_iff.
  - eapply GTVGraphic; eauto.
Qed.

Lemma gverdict_invalid w h g e : GraphicVerdict w h g (Err e) -> ~ valid_graphic w h g.
Proof. intros V H. pose proof (GraphicVerdict_fun _ _ _ _ _ V (GVOk _ _ _ H)). discriminate. Qed.

Lemma GraphicsVerdict_fun w h t r s : GraphicsVerdict w h t r -> GraphicsVerdict w h t s -> r = s.
Proof.
  intros Hr Hs.
  assert (X : forall pre g post e, t = pre ++ g :: post -> kept w h g -> GraphicVerdict w h g (Err e) ->
    ~ (forall k, In k t -> kept w h k -> valid_graphic w h k)).
  { intros pre g post e -> K V A. apply (gverdict_invalid _ _ _ _ V). apply A; auto. rewrite in_app_iff. cbn. auto. }
  destruct Hr as [pre g post e E K A V|ns A KN N|[A (ns & KN & N)]];
    inversion Hs as [pre' g' post' e' E' K' A' V'|ns' A' KN' N'|[A' (ns' & KN' & N')]]; subst; auto;
    try (exfalso; eapply X; eauto; fail).
  - destruct (split_uniq (fun k => kept w h k -> valid_graphic w h k) _ _ _ _ _ _ E') as (_ & <- & _); auto.
    + intros H. apply (gverdict_invalid _ _ _ _ V); auto.
    + intros H. apply (gverdict_invalid _ _ _ _ V'); auto.
    + eapply GraphicVerdict_fun; eauto.
  - apply KeptNumbers_iff in KN, KN'. congruence.
  - apply KeptNumbers_iff in KN, KN'. congruence.
Qed.

(** ** Build *)

Lemma pages_ok_spec c : u8 (max_number_pages c) ->
  (multi_cfg_validate c = Ok tt /\ pages_ok c)
  \/ (multi_cfg_validate c = Err InvalidPageCfg /\ ~ pages_ok c).
Proof.
  unfold u8, multi_cfg_validate, pages_ok, contains_tag. cbn [tag_bit]. intros H.
  destruct (Z.testbit (supported_multi_tags c) 11);
    destruct (Z.eqb_spec (max_number_pages c) 0), (Z.ltb_spec 1 (max_number_pages c)); cbn [orb andb negb];
    try (left; split; [reflexivity|lia]); right; (split; [reflexivity|]); intros [X|[X Y]]; try discriminate; lia.
Qed.

Lemma retain_slots b : builder_fields b ->
  Forall2 (SlotAfter (bw b) (bh b)) (b_graphics b)
    (graphic_retain (b_graphics b) (bw b) (bh b)).
Proof.
  intros _. unfold graphic_retain. induction (b_graphics b) as [|g r IH]; cbn [map]; constructor; auto.
  unfold SlotAfter. destruct (Z.ltb_spec (bw b) (g_width g)); cbn [orb].
  - right. splits; auto.
  - destruct (Z.ltb_spec (bh b) (g_height g)); [right|left]; splits; auto; lia.
Qed.

Lemma sign_cfg_spec md s v : sign_fields s -> vms_fields v ->
  face_width s v < 65536 -> face_height s v < 65536 ->
  (sign_cfg_validate md s v = Val (Ok tt) /\ fits_face s v)
  \/ (sign_cfg_validate md s v = Val (Err InvalidDimensions) /\ ~ fits_face s v).
Proof.
  unfold sign_fields, vms_fields, face_width, face_height, fits_face, u8, u16.
  intros (H1 & H2 & H3 & H4) (_ & _ & H5 & H6 & H7 & H8 & _) W H.
  unfold sign_cfg_validate, is_width_valid, is_height_valid.
  unfold face_width, face_height.
  set (p := sign_width_pixels v * horizontal_pitch v) in *.
  set (q := sign_height_pixels v * vertical_pitch v) in *.
  assert (0 <= p) by (unfold p; nia). assert (0 <= q) by (unfold q; nia). clearbody p q.
  repeat (rewrite chk16_in by lia; cbn [bind]).
  destruct (Z.leb_spec (horizontal_border s + p) (sign_width s)); cbn [bind].
  - repeat (rewrite chk16_in by lia; cbn [bind]).
    destruct (Z.leb_spec (vertical_border s + q) (sign_height s)); [left|right]; split; auto; lia.
  - right. split; auto; lia.
Qed.

Lemma sign_cfg_debug s v : sign_fields s -> vms_fields v ->
  (sign_cfg_validate Debug s v = Panic
   /\ (65536 <= face_width s v \/ face_width s v <= sign_width s /\ 65536 <= face_height s v))
  \/ (~ (65536 <= face_width s v \/ face_width s v <= sign_width s /\ 65536 <= face_height s v)
      /\ ((sign_cfg_validate Debug s v = Val (Ok tt) /\ fits_face s v)
          \/ (sign_cfg_validate Debug s v = Val (Err InvalidDimensions) /\ ~ fits_face s v))).
Proof.
  intros Hs Hv. assert (Hs' := Hs). assert (Hv' := Hv).
  unfold sign_fields, vms_fields, u8, u16 in Hs, Hv.
  destruct Hs as (H1 & H2 & H3 & H4). destruct Hv as (_ & _ & H5 & H6 & H7 & H8 & _).
  assert (Cd : forall x y, 0 <= x -> 0 <= y -> 65536 <= x + y ->
     (let! p := chk16 Debug y in chk16 Debug (x + p)) = Panic).
  { intros x y Hx Hy L. destruct (Z_lt_le_dec y 65536).
    - rewrite chk16_in by lia. cbn [bind]. apply chk_debug. lia.
    - unfold chk16 at 1. rewrite (proj2 (chk_debug 65536 y)) by lia. reflexivity. }
  assert (P1 : 0 <= sign_width_pixels v * horizontal_pitch v) by nia.
  assert (P2 : 0 <= sign_height_pixels v * vertical_pitch v) by nia.
  destruct (Z_lt_le_dec (face_width s v) 65536) as [W|W].
  - destruct (Z_lt_le_dec (face_height s v) 65536) as [H|H].
    + right. split; [lia|]. now apply sign_cfg_spec.
    + destruct (Z_le_gt_dec (face_width s v) (sign_width s)) as [F|F].
      * left. split; [|lia]. unfold face_width, face_height in *.
        unfold sign_cfg_validate, is_width_valid. repeat (rewrite chk16_in by lia; cbn [bind]).
        replace (_ <=? sign_width s) with true by lia. unfold is_height_valid.
        specialize (Cd (vertical_border s) _ ltac:(lia) P2 H).
        destruct (chk16 Debug (sign_height_pixels v * vertical_pitch v)); cbn [bind] in *; [|reflexivity|discriminate].
        rewrite Cd. reflexivity.
      * right. split; [lia|]. right. unfold face_width, face_height, fits_face in *. split; [|unfold face_width; lia].
        unfold sign_cfg_validate, is_width_valid. repeat (rewrite chk16_in by lia; cbn [bind]).
        now replace (_ <=? sign_width s) with false by lia.
  - left. split; [|lia]. unfold face_width in W. unfold sign_cfg_validate, is_width_valid.
    specialize (Cd (horizontal_border s) _ ltac:(lia) P1 W).
    destruct (chk16 Debug (sign_width_pixels v * horizontal_pitch v)); cbn [bind] in *; [|reflexivity|discriminate].
    rewrite Cd. reflexivity.
Qed.

(** Everything after the face check. *)
Lemma build_rest md b : builder_fields b ->
  sign_cfg_validate md (b_sign_cfg b) (b_vms_cfg b) = Val (Ok tt) ->
  fits_face (b_sign_cfg b) (b_vms_cfg b) ->
  (exists r, build md b = Val r /\ BuildVerdict b r)
  \/ (build md b = Panic /\ pages_ok (b_multi_cfg b) /\ font_table_validate (b_fonts b) = Panic).
Proof.
  intros Hb E F. assert (Hb' := Hb). destruct Hb as (Hs & Hv & (_ & _ & _ & _ & _ & Hp) & Ht & Hg). unfold build. rewrite E.
  cbn [bind lift_err try].
  destruct (pages_ok_spec (b_multi_cfg b)) as [[-> P]|[-> P]].
  { exact Hp. }
  2:{ left. eexists. split; [reflexivity|]. now apply BVPages. }
  cbn [lift_err try].
  destruct (table_validate_cases (b_fonts b) Ht) as [(r & -> & V)|(-> & _)]; [|right; auto].
  cbn [bind]. destruct r as [[]|e]; cbn [lift_err try].
  2:{ left. eexists. split; [reflexivity|]. now apply BVFont. }
  assert (VF : valid_fonts (b_fonts b)) by (inversion V; auto).
  pose proof (graphics_verdict (bw b) (bh b) (b_graphics b) Hg) as GV. unfold bw, bh in GV.
  left. destruct (graphic_table_validate _ _ _) as [[]|e]; cbn [lift_err try].
  - eexists. split; [reflexivity|]. apply BVOk; auto.
    + unfold bw, bh. inversion GV; auto.
    + unfold BuiltFrom. cbn [d_sign_cfg d_vms_cfg d_fonts d_multi_cfg d_graphics]. splits; auto.
      now apply retain_slots.
  - eexists. split; [reflexivity|]. apply BVGraphic; auto.
Qed.

Definition face_small (b : DmsBuilder) : Prop :=
  face_width (b_sign_cfg b) (b_vms_cfg b) < 65536 /\ face_height (b_sign_cfg b) (b_vms_cfg b) < 65536.

Lemma build_spec md b : builder_fields b -> face_small b ->
  font_table_validate (b_fonts b) <> Panic ->
  exists r, build md b = Val r /\ BuildVerdict b r.
Proof.
  intros Hb [W H] NP. assert (Hb' := Hb). destruct Hb as (Hs & Hv & _).
  destruct (sign_cfg_spec md _ _ Hs Hv W H) as [[E F]|[E F]].
  - destruct (build_rest md b Hb' E F) as [X|(_ & _ & X)]; [auto|contradiction].
  - eexists. split; [unfold build; rewrite E; reflexivity|]. now apply BVFace.
Qed.

(** Debug mode: exactly when it panics, and the right verdict otherwise. *)
Lemma build_debug b : builder_fields b ->
  (exists r, build Debug b = Val r /\ BuildVerdict b r)
  \/ (build Debug b = Panic
      /\ (65536 <= face_width (b_sign_cfg b) (b_vms_cfg b)
          \/ face_width (b_sign_cfg b) (b_vms_cfg b) <= sign_width (b_sign_cfg b)
             /\ 65536 <= face_height (b_sign_cfg b) (b_vms_cfg b)
          \/ fits_face (b_sign_cfg b) (b_vms_cfg b) /\ pages_ok (b_multi_cfg b)
             /\ font_table_validate (b_fonts b) = Panic)).
Proof.
  intros Hb. assert (Hb' := Hb). destruct Hb as (Hs & Hv & _).
  destruct (sign_cfg_debug _ _ Hs Hv) as [[E F]|(_ & [[E F]|[E F]])].
  - right. split; [unfold build; now rewrite E|]. lia.
  - destruct (build_rest Debug b Hb' E F) as [X|(E' & P & X)]; [auto|]. right. split; auto.
  - left. eexists. split; [unfold build; rewrite E; reflexivity|]. now apply BVFace.
Qed.

Lemma build_panic b : builder_fields b ->
  (build Debug b = Panic
   <-> 65536 <= face_width (b_sign_cfg b) (b_vms_cfg b)
       \/ face_width (b_sign_cfg b) (b_vms_cfg b) <= sign_width (b_sign_cfg b)
          /\ 65536 <= face_height (b_sign_cfg b) (b_vms_cfg b)
       \/ fits_face (b_sign_cfg b) (b_vms_cfg b) /\ pages_ok (b_multi_cfg b)
          /\ font_table_validate (b_fonts b) = Panic).
Proof.
  intros Hb. split.
  - intros E. destruct (build_debug b Hb) as [(r & E' & _)|(_ & X)]; [congruence|auto].
  - assert (Hb' := Hb). destruct Hb as (Hs & Hv & (_ & _ & _ & _ & _ & Hp) & _).
    destruct (sign_cfg_debug _ _ Hs Hv) as [[E F]|(N & [[E F]|[E F]])].
    + intros _. unfold build. now rewrite E.
    + intros [X|[X|(_ & P & X)]]; try (exfalso; apply N; auto; fail).
      unfold build. rewrite E. cbn [bind lift_err try].
      destruct (pages_ok_spec (b_multi_cfg b) Hp) as [[-> _]|[_ P']]; [|contradiction].
      cbn [lift_err try]. now rewrite X.
    + intros [X|[X|(X & _)]]; try (exfalso; apply N; auto; fail). contradiction.
Qed.

(** The graphics part of a build result is determined. *)
Lemma SlotAfter_zero w h g g' : SlotAfter w h g g' -> g' = g \/ g_number g' = 0.
Proof. unfold SlotAfter. tauto. Qed.

(** ** Rebuilding *)

Lemma retain_idem t w h : graphic_retain (graphic_retain t w h) w h = graphic_retain t w h.
Proof.
  unfold graphic_retain. rewrite map_map. apply map_ext. intros g.
  destruct ((w <? g_width g) || (h <? g_height g)) eqn:E; [|now rewrite E].
  destruct ((w <? g_width graphic_default) || (h <? g_height graphic_default)); reflexivity.
Qed.

Lemma rebuild md b d : build md b = Val (Ok d) -> build md (into_builder d) = Val (Ok d).
Proof.
  unfold build. intros H.
  destruct (sign_cfg_validate md (b_sign_cfg b) (b_vms_cfg b)) as [[u|e]| |] eqn:E1; try discriminate H.
  cbn [bind lift_err try] in H.
  destruct (multi_cfg_validate (b_multi_cfg b)) as [u2|e] eqn:E2; try discriminate H. cbn [bind lift_err try] in H.
  destruct (font_table_validate (b_fonts b)) as [[u3|e]| |] eqn:E3; try discriminate H. cbn [bind lift_err try] in H.
  destruct (graphic_table_validate (graphic_retain (b_graphics b) (sign_width_pixels (b_vms_cfg b))
              (sign_height_pixels (b_vms_cfg b))) (sign_width_pixels (b_vms_cfg b))
              (sign_height_pixels (b_vms_cfg b))) as [u4|e] eqn:E4;
    try discriminate H. cbn [bind lift_err try] in H. inversion H; subst d.
  cbn [into_builder b_sign_cfg b_vms_cfg b_fonts b_multi_cfg b_graphics d_sign_cfg d_vms_cfg d_fonts d_multi_cfg d_graphics].
  rewrite E1. cbn [bind lift_err try]. rewrite E2. cbn [bind lift_err try]. rewrite E3. cbn [bind lift_err try].
  rewrite retain_idem, E4. reflexivity.
Qed.

Lemma build_result md b d : builder_fields b -> build md b = Val (Ok d) -> BuiltFrom b d.
Proof.
  unfold build. intros Hb H.
  destruct (sign_cfg_validate md (b_sign_cfg b) (b_vms_cfg b)) as [[u|e]| |] eqn:E1; try discriminate H.
  cbn [bind lift_err try] in H.
  destruct (multi_cfg_validate (b_multi_cfg b)) as [u2|e] eqn:E2; try discriminate H. cbn [bind lift_err try] in H.
  destruct (font_table_validate (b_fonts b)) as [[u3|e]| |] eqn:E3; try discriminate H. cbn [bind lift_err try] in H.
  destruct (graphic_table_validate _ _ _) as [u4|e] eqn:E4;
    try discriminate H. cbn [bind lift_err try] in H. inversion H; subst d.
  unfold BuiltFrom. cbn [d_sign_cfg d_vms_cfg d_fonts d_multi_cfg d_graphics]. splits; auto. now apply retain_slots.
Qed.

(** What a built sign satisfies, in both modes. *)
Lemma build_valid md b d : builder_fields b -> build md b = Val (Ok d) ->
  valid_fonts (d_fonts d) /\ pages_ok (d_multi_cfg d)
  /\ Forall graphic_fields (d_graphics d)
  /\ (forall g, In g (d_graphics d) -> g_number g <> 0 -> valid_graphic (pixel_width d) (pixel_height d) g)
  /\ (forall g, In g (d_graphics d) -> g_width g <= pixel_width d /\ g_height g <= pixel_height d).
Proof.
  intros Hb H. assert (Hb' := Hb). destruct Hb as (Hs & Hv & (_ & _ & _ & _ & _ & Hp) & Ht & Hg).
  unfold build in H.
  destruct (sign_cfg_validate md (b_sign_cfg b) (b_vms_cfg b)) as [[u|e]| |] eqn:E1; try discriminate H.
  cbn [bind lift_err try] in H.
  destruct (pages_ok_spec (b_multi_cfg b) Hp) as [[E2 P]|[E2 P]]; rewrite E2 in H; [|discriminate H].
  cbn [bind lift_err try] in H.
  destruct (font_table_validate (b_fonts b)) as [[[]|e]| |] eqn:E3; try discriminate H. cbn [bind lift_err try] in H.
  pose proof (graphics_verdict (bw b) (bh b) (b_graphics b) Hg) as GV. unfold bw, bh in GV.
  destruct (graphic_table_validate _ _ _) as [[]|e]; try discriminate H. cbn [bind lift_err try] in H.
  inversion H; subst d. unfold pixel_width, pixel_height. cbn [d_sign_cfg d_vms_cfg d_fonts d_multi_cfg d_graphics].
  set (w := sign_width_pixels (b_vms_cfg b)) in *. set (h := sign_height_pixels (b_vms_cfg b)) in *.
  assert (VG : valid_graphics w h (b_graphics b)) by (inversion GV; auto).
  assert (Hw : 0 <= w /\ 0 <= h).
  { destruct Hv as (_ & _ & X & Y & _). unfold u16 in *. unfold w, h. lia. }
  assert (IN : forall g, In g (graphic_retain (b_graphics b) w h) ->
    exists g0, In g0 (b_graphics b) /\ slot w h g0 = g).
  { intros g I. apply in_map_iff in I. destruct I as (g0 & E & I). exists g0. split; auto. }
  splits.
  - now apply table_validate_ok.
  - exact P.
  - apply Forall_forall. intros g I. destruct (IN g I) as (g0 & I0 & <-). unfold slot.
    destruct (_ || _).
    + unfold graphic_fields, graphic_default, u8, u16. cbn. splits; try lia; auto.
    + rewrite Forall_forall in Hg. auto.
  - intros g I U. destruct (IN g I) as (g0 & I0 & <-). destruct (kept_dec w h g0) as [K|K].
    + rewrite slot_kept by auto. now apply VG.
    + rewrite slot_not_kept in U by auto. contradiction.
  - intros g I. destruct (IN g I) as (g0 & I0 & <-). unfold slot.
    destruct (Z.ltb_spec w (g_width g0)); cbn [orb]; [cbn; lia|].
    destruct (Z.ltb_spec h (g_height g0)); [cbn|]; lia.
Qed.
