(** Proofs about graphics. *)

From Verif Require Import Base Str Multi Color Oer Crc Raster Font Graphic Spec_Color Spec_Font Spec_Tfon
  Spec_Graphic Proofs_Str Proofs_Color Proofs_Font Proofs_Glyph.
From Coq Require Import ZifyBool ZifyNat.
Ltac Zify.zify_post_hook ::= Z.div_mod_to_equations.

(** ** Validation *)

Lemma bitmap_valid_spec g : graphic_fields g -> (is_bitmap_valid g = true <-> bitmap_complete g).
Proof.
  intros (_ & H1 & H2 & _). unfold is_bitmap_valid, bitmap_complete, div_ceil8, u16 in *.
  set (p := g_height g * g_width g). assert (0 <= p) by (unfold p; nia). clearbody p.
  destruct (g_type g); lia.
Qed.

Lemma color_valid_spec g : is_transparent_color_valid g = true <-> color_kind_ok g.
Proof.
  unfold is_transparent_color_valid, color_kind_ok.
  destruct (g_type g), (g_transparent g) as [[]|]; intuition discriminate.
Qed.

Lemma graphic_validate_verdict g w h : graphic_fields g ->
  GraphicVerdict w h g (graphic_validate g w h).
Proof.
  intros H. unfold graphic_validate.
  destruct (Z.ltb_spec (g_number g) 1); [now constructor|].
  destruct ((g_height g <? 1) || (h <? g_height g)) eqn:E1; [constructor; lia|].
  destruct ((g_width g <? 1) || (w <? g_width g)) eqn:E2; [constructor; lia|].
  pose proof (bitmap_valid_spec g H) as B. destruct (is_bitmap_valid g); cbn [negb].
  - pose proof (color_valid_spec g) as C. destruct (is_transparent_color_valid g); cbn [negb].
    + apply GVOk. unfold valid_graphic. splits; try lia; tauto.
    + apply GVColor; try lia; try tauto. intros X. apply C in X. discriminate.
  - apply GVBitmap; try lia. intros X. apply B in X. discriminate.
Qed.

Lemma GraphicVerdict_fun w h g r s : GraphicVerdict w h g r -> GraphicVerdict w h g s -> r = s.
Proof.
  intros Hr Hs. inversion Hr; inversion Hs; subst; try reflexivity; exfalso;
    repeat match goal with H : valid_graphic _ _ _ |- _ => destruct H as (? & ? & ? & ? & ?) end;
    try lia; try contradiction.
Qed.

Lemma graphic_validate_iff g w h r : graphic_fields g ->
  (graphic_validate g w h = r <-> GraphicVerdict w h g r).
Proof.
  intros H. split; [intros <-; now apply graphic_validate_verdict|].
  intros V. exact (GraphicVerdict_fun _ _ _ _ _ (graphic_validate_verdict g w h H) V).
Qed.

(** ** Pixels *)

Lemma index_nth l i b : 0 <= i -> (index l i = Val b <-> nth_error l (Z.to_nat i) = Some b).
Proof.
  intros H. unfold index. replace (0 <=? i) with true by lia.
  destruct (nth_error l (Z.to_nat i)); split; congruence.
Qed.

Lemma nth_some {A} (l : list A) k : (k < length l)%nat -> exists x, nth_error l k = Some x.
Proof. intros H. destruct (nth_error l k) eqn:E; [eauto|]. apply nth_error_None in E. lia. Qed.

Lemma offset_bound g x y : 0 <= x < g_width g -> 0 <= y < g_height g ->
  0 <= y * g_width g + x < g_height g * g_width g.
Proof. nia. Qed.

Definition shown (ctx : ColorCtx) (c : Color) (o : option rgb) : Prop :=
  match o with Some x => Shows ctx c x | None => forall x, ~ Shows ctx c x end.

Lemma ctx_rgb_shown ctx c : ctx_ok ctx -> color_bytes c -> shown ctx c (ctx_rgb ctx c).
Proof.
  intros Ho Hc. assert (H : match c with Legacy v => u8 v | _ => True end) by (destruct c; cbn in *; auto).
  unfold shown. destruct (ctx_rgb ctx c) eqn:E.
  - now apply ctx_rgb_iff.
  - now apply ctx_rgb_none.
Qed.

(** What [pixel_fn] computes. *)
Definition PixelIs (g : Graphic) (ctx : ColorCtx) (x y : Z) (o : option rgb) : Prop :=
  exists c, Stored g x y c
    /\ ((g_transparent g = Some c /\ o = None)
        \/ (g_transparent g <> Some c
            /\ match o with
               | Some x => Displays g ctx c x
               | None => forall x, ~ Displays g ctx c x
               end)).

Lemma Forall_nth_u8 l k b : Forall u8 l -> nth_error l k = Some b -> u8 b.
Proof. intros H E. rewrite Forall_forall in H. apply H. eapply nth_error_In; eauto. Qed.

Lemma displays_fg g ctx : g_type g = Monochrome1Bit -> ctx_bytes ctx ->
  match ctx_rgb ctx (fg_current ctx) with
  | Some x => Displays g ctx (Legacy 1) x
  | None => forall x, ~ Displays g ctx (Legacy 1) x
  end.
Proof.
  intros T (Ho & Hf & _). pose proof (ctx_rgb_shown ctx _ Ho Hf) as S. unfold shown in S.
  destruct (ctx_rgb ctx (fg_current ctx)); [now apply Dp_fg|].
  intros x D. inversion D; subst; try (now apply (S x)); match goal with H : _ \/ _ |- _ => destruct H; congruence end.
Qed.

Lemma displays_bg g ctx : g_type g = Monochrome1Bit -> ctx_bytes ctx ->
  match ctx_rgb ctx (bg_current ctx) with
  | Some x => Displays g ctx (Legacy 0) x
  | None => forall x, ~ Displays g ctx (Legacy 0) x
  end.
Proof.
  intros T (Ho & _ & Hf). pose proof (ctx_rgb_shown ctx _ Ho Hf) as S. unfold shown in S.
  destruct (ctx_rgb ctx (bg_current ctx)); [now apply Dp_bg|].
  intros x D. inversion D; subst; try (now apply (S x)); match goal with H : _ \/ _ |- _ => destruct H; congruence end.
Qed.

Lemma displays_8 g ctx v : g_type g = Monochrome8Bit \/ g_type g = ColorClassicScheme -> ctx_bytes ctx ->
  u8 v ->
  match ctx_rgb ctx (Legacy v) with
  | Some x => Displays g ctx (Legacy v) x
  | None => forall x, ~ Displays g ctx (Legacy v) x
  end.
Proof.
  intros T (Ho & _ & _) Hv. pose proof (ctx_rgb_shown ctx (Legacy v) Ho Hv) as S. unfold shown in S.
  destruct (ctx_rgb ctx (Legacy v)); [now apply Dp_8|].
  intros x D. inversion D; subst; try (destruct T; congruence). now apply (S x).
Qed.

Lemma pixel_8_spec g ctx x y : graphic_fields g -> bitmap_complete g -> color_kind_ok g ->
  g_type g = Monochrome8Bit \/ g_type g = ColorClassicScheme ->
  ctx_bytes ctx -> 0 <= x < g_width g -> 0 <= y < g_height g ->
  exists o, pixel_8 g x y ctx = Val o /\ PixelIs g ctx x y o.
Proof.
  intros (_ & _ & _ & _ & Hb) C K T Hc Hx Hy.
  pose proof (offset_bound g x y Hx Hy) as B. set (off := y * g_width g + x) in *.
  assert (L : Z.of_nat (length (g_bitmap g)) = g_height g * g_width g).
  { unfold bitmap_complete in C. cbv zeta in C. destruct T as [T|T]; rewrite T in C; auto. }
  unfold pixel_8. fold off. destruct (nth_some (g_bitmap g) (Z.to_nat off)) as [v E]; [lia|].
  rewrite (proj2 (index_nth (g_bitmap g) off v ltac:(lia)) E). cbn [bind].
  assert (S : Stored g x y (Legacy v)).
  { apply (St_8 g x y (Z.to_nat off)); auto; fold off; lia. }
  pose proof (Forall_nth_u8 _ _ _ Hb E) as U. pose proof (displays_8 g ctx v T Hc U) as D.
  eexists. split; [reflexivity|]. exists (Legacy v). split; [auto|]. unfold color_kind_ok in K.
  destruct (g_transparent g) as [[c|r' g' b']|].
  - destruct (Z.eqb_spec v c) as [->|N]; [left; auto|right]. split; [congruence|auto].
  - destruct T as [T|T]; rewrite T in K; contradiction.
  - right. split; [congruence|auto].
Qed.

Lemma pixel_fn_spec g ctx x y : graphic_fields g -> bitmap_complete g -> color_kind_ok g ->
  ctx_bytes ctx -> 0 <= x < g_width g -> 0 <= y < g_height g ->
  exists o, pixel_fn g x y ctx = Val o /\ PixelIs g ctx x y o.
Proof.
  intros Hg C K Hc Hx Hy.
  pose proof (offset_bound g x y Hx Hy) as B. set (off := y * g_width g + x) in *.
  unfold pixel_fn. destruct (g_type g) eqn:T.
  - unfold bitmap_complete in C. cbv zeta in C. rewrite T in C.
    unfold pixel_1. fold off. destruct (nth_some (g_bitmap g) (Z.to_nat (off / 8))) as [b E]; [lia|].
    rewrite (proj2 (index_nth (g_bitmap g) (off / 8) b ltac:(lia)) E). cbn [bind].
    assert (EL : Z.land off 7 = off mod 8) by (change 7 with (Z.ones 3); rewrite Z.land_ones by lia; reflexivity).
    rewrite EL, bit_test by lia. set (v := Z.testbit b (7 - off mod 8)).
    assert (S : Stored g x y (Legacy (if v then 1 else 0))).
    { apply (St_1 g x y (Z.to_nat (off / 8)) b (off mod 8) v); auto; fold off; lia. }
    eexists. split; [reflexivity|]. exists (Legacy (if v then 1 else 0)). split; [auto|].
    pose proof (displays_fg g ctx T Hc) as Df. pose proof (displays_bg g ctx T Hc) as Db.
    unfold color_kind_ok in K. rewrite T in K.
    destruct v; (destruct (g_transparent g) as [[[|[p|p|]|p]|r' g' b']|]; try contradiction;
      solve [left; split; reflexivity | right; split; [discriminate|assumption]]).
  - apply pixel_8_spec; auto.
  - apply pixel_8_spec; auto.
  - destruct Hg as (_ & _ & _ & _ & Hb). unfold bitmap_complete in C. cbv zeta in C. rewrite T in C.
    unfold pixel_24. fold off.
    destruct (nth_some (g_bitmap g) (Z.to_nat (3 * off))) as [b E1]; [lia|].
    destruct (nth_some (g_bitmap g) (Z.to_nat (3 * off + 1))) as [v E2]; [lia|].
    destruct (nth_some (g_bitmap g) (Z.to_nat (3 * off + 2))) as [r E3]; [lia|].
    rewrite (proj2 (index_nth (g_bitmap g) (3 * off) b ltac:(lia)) E1). cbn [bind].
    rewrite (proj2 (index_nth (g_bitmap g) (3 * off + 1) v ltac:(lia)) E2). cbn [bind].
    rewrite (proj2 (index_nth (g_bitmap g) (3 * off + 2) r ltac:(lia)) E3). cbn [bind].
    assert (S : Stored g x y (Rgb r v b)).
    { apply (St_24 g x y (Z.to_nat off)); auto; fold off.
      - lia.
      - replace (3 * Z.to_nat off)%nat with (Z.to_nat (3 * off)) by lia. auto.
      - replace (3 * Z.to_nat off + 1)%nat with (Z.to_nat (3 * off + 1)) by lia. auto.
      - replace (3 * Z.to_nat off + 2)%nat with (Z.to_nat (3 * off + 2)) by lia. auto. }
    eexists. split; [reflexivity|]. exists (Rgb r v b). split; [auto|].
    unfold color_kind_ok in K. rewrite T in K.
    destruct (g_transparent g) as [[c|r' g' b']|]; try contradiction.
    + destruct ((r =? r') && (v =? g') && (b =? b')) eqn:Q.
      * left. split; [|reflexivity]. rewrite !andb_true_iff, !Z.eqb_eq in Q. destruct Q as [[-> ->] ->]. reflexivity.
      * right. split; [intros X; inversion X; subst; now rewrite !Z.eqb_refl in Q|]. now apply Dp_24.
    + right. split; [discriminate|]. now apply Dp_24.
Qed.

Lemma Stored_fun g x y c d : Stored g x y c -> Stored g x y d -> c = d.
Proof.
  intros Hc Hd. inversion Hc as [k b i v T N I E B|k v T N E|k r v b T E N1 N2 N3];
    inversion Hd as [k' b' i' v' T' N' I' E' B'|k' v' T' N' E'|k' r' v' b' T' E' N1' N2' N3'];
    subst; try (destruct T; congruence); try (destruct T'; congruence); try congruence.
  - assert (k = k') by lia. assert (i = i') by lia. subst. rewrite N in N'. now inversion N'.
  - assert (k = k') by lia. subst. congruence.
  - assert (k = k') by lia. subst. congruence.
Qed.

Lemma Shows_fun ctx c x y : ctx_ok ctx -> color_bytes c -> Shows ctx c x -> Shows ctx c y -> x = y.
Proof.
  intros Ho Hc Hx Hy. assert (H : match c with Legacy v => u8 v | _ => True end) by (destruct c; cbn in *; auto).
  apply ctx_rgb_iff in Hx, Hy; auto. congruence.
Qed.

Lemma Stored_bytes g x y c : Forall u8 (g_bitmap g) -> Stored g x y c -> color_bytes c.
Proof.
  intros Hb S. inversion S; subst; unfold color_bytes.
  - destruct (Z.testbit b (7 - i)); red; lia.
  - eapply Forall_nth_u8; eauto.
  - splits; eapply Forall_nth_u8; eauto.
Qed.

Lemma PixelIs_Inks g ctx x y o : Forall u8 (g_bitmap g) -> ctx_bytes ctx ->
  0 <= x < g_width g -> 0 <= y < g_height g -> PixelIs g ctx x y o ->
  forall c, o = Some c <-> Inks g ctx x y c.
Proof.
  intros Hb (Ho & Hf & Hg) Hx Hy (s & S & H) c. split.
  - intros ->. unfold Inks. splits; auto; try lia. exists s. destruct H as [[_ H]|[N D]]; [discriminate|]. auto.
  - intros (_ & _ & s' & S' & N & D). rewrite (Stored_fun _ _ _ _ _ S' S) in *.
    destruct H as [[H _]|[_ H]]; [contradiction|]. destruct o as [x'|]; [|exfalso; now apply (H c)].
    f_equal. pose proof (Stored_bytes _ _ _ _ Hb S) as Bs.
    destruct D as [? ? X|? ? X|? ? ? X|? ? ? ?]; inversion H; subst;
      repeat match goal with H : _ \/ _ |- _ => destruct H end; try congruence;
      match goal with A : Shows _ ?c _, B : Shows _ ?c _ |- _ => eapply (Shows_fun ctx c); eauto end.
Qed.

(** ** Drawing *)

Definition row_paint {P} (g : Graphic) (ctx : ColorCtx) (conv : rgb -> P) (ox oy : Z)
    (Q : Z -> Z -> Prop) (x y : Z) (c : P) : Prop :=
  Q (x - ox) (y - oy) /\ exists c', Inks g ctx (x - ox) (y - oy) c' /\ c = conv c'.

Definition box_on {P} (g : Graphic) (ox oy : Z) (p : Raster P) : Prop :=
  0 <= ox /\ ox + g_width g <= r_width p /\ 0 <= oy /\ oy + g_height g <= r_height p.

(** Drawing with an explicit ink function. *)
Definition overlaidb {P} (p q : Raster P) (ink : Z -> Z -> option P) : Prop :=
  r_width q = r_width p /\ r_height q = r_height p
  /\ forall x y, r_pixel q x y = match ink x y with Some c => c | None => r_pixel p x y end.

Lemma overlaidb_trans {P} (p q r : Raster P) s t u :
  (forall x y, u x y = match t x y with Some c => Some c | None => s x y end) ->
  overlaidb p q s -> overlaidb q r t -> overlaidb p r u.
Proof.
  intros H (A1 & A2 & A3) (B1 & B2 & B3). unfold overlaidb. splits; try congruence. intros x y.
  rewrite B3, H, A3. now destruct (t x y).
Qed.

Lemma overlaidb_refl {P} (p : Raster P) s : (forall x y, s x y = None) -> overlaidb p p s.
Proof. intros H. unfold overlaidb. splits; auto. intros. now rewrite H. Qed.

Section Draw.
  Context {P : Type} (g : Graphic) (ctx : ColorCtx) (conv : rgb -> P) (ox oy : Z).
  Hypothesis Hp : forall x y, 0 <= x < g_width g -> 0 <= y < g_height g ->
    exists o, pixel_fn g x y ctx = Val o.

  Definition ink_at (x y : Z) : option P :=
    match pixel_fn g (x - ox) (y - oy) ctx with
    | Val (Some c) => Some (conv c)
    | _ => None
    end.

  Lemma draw_pixel_ok (p : Raster P) x y : box_on g ox oy p ->
    0 <= x < g_width g -> 0 <= y < g_height g ->
    exists q, draw_pixel g ctx conv ox oy p x y = Val q
      /\ overlaidb p q (fun px py => if (px =? ox + x) && (py =? oy + y) then ink_at px py else None).
  Proof.
    intros (B1 & B2 & B3 & B4) Hx Hy. unfold draw_pixel. destruct (Hp x y Hx Hy) as [o E]. rewrite E. cbn [bind].
    assert (I : ink_at (ox + x) (oy + y) = match o with Some c => Some (conv c) | None => None end).
    { unfold ink_at. replace (ox + x - ox) with x by lia. replace (oy + y - oy) with y by lia.
      rewrite E. now destruct o. }
    destruct o as [c|].
    - unfold set_pixel. replace (in_raster p (ox + x) (oy + y)) with true by (unfold in_raster; lia).
      eexists. split; [reflexivity|]. unfold overlaidb. splits; auto. intros px py. cbn [r_pixel].
      destruct (Z.eqb_spec px (ox + x)) as [->|]; [|reflexivity].
      destruct (Z.eqb_spec py (oy + y)) as [->|]; [|reflexivity]. now rewrite I.
    - exists p. split; [reflexivity|]. apply overlaidb_refl. intros px py.
      destruct (Z.eqb_spec px (ox + x)) as [->|]; [|reflexivity].
      destruct (Z.eqb_spec py (oy + y)) as [->|]; [|reflexivity]. now rewrite I.
  Qed.

  Lemma box_on_same (p q : Raster P) s : overlaidb p q s -> box_on g ox oy p -> box_on g ox oy q.
  Proof. intros (W & H & _). unfold box_on. now rewrite W, H. Qed.

  Lemma draw_row_ok y xs : 0 <= y < g_height g -> Forall (fun x => 0 <= x < g_width g) xs ->
    forall p, box_on g ox oy p ->
    exists q, draw_row g ctx conv ox oy p y xs = Val q
      /\ overlaidb p q (fun px py => if existsb (Z.eqb (px - ox)) xs && (py =? oy + y) then ink_at px py else None).
  Proof.
    intros Hy. induction xs as [|x r IH]; intros Hxs p B; cbn [draw_row].
    - exists p. split; [reflexivity|]. apply overlaidb_refl. reflexivity.
    - inversion Hxs as [|? ? Hx Hr]; subst. destruct (draw_pixel_ok p x y B Hx Hy) as (q & E & D).
      rewrite E. cbn [bind]. destruct (IH Hr q (box_on_same _ _ _ D B)) as (q' & E' & D').
      exists q'. split; [auto|]. eapply overlaidb_trans; [|exact D|exact D']. intros px py. cbn [existsb].
      replace (px - ox =? x) with (px =? ox + x) by lia.
      destruct (px =? ox + x), (existsb (Z.eqb (px - ox)) r), (py =? oy + y); cbn [andb orb]; auto;
        now destruct (ink_at px py).
  Qed.

  Lemma zrange_in n k : In k (zrange n) <-> 0 <= k < n.
  Proof.
    unfold zrange. rewrite in_map_iff. split.
    - intros (i & <- & I). rewrite in_seq in I. lia.
    - intros H. exists (Z.to_nat k). rewrite in_seq. lia.
  Qed.

  Lemma existsb_zrange n k : existsb (Z.eqb k) (zrange n) = (0 <=? k) && (k <? n).
  Proof.
    destruct (existsb (Z.eqb k) (zrange n)) eqn:E.
    - apply existsb_exists in E. destruct E as (j & I & E). apply zrange_in in I. lia.
    - symmetry. destruct ((0 <=? k) && (k <? n)) eqn:F; [|reflexivity]. rewrite <- E. symmetry.
      apply existsb_exists. exists k. rewrite zrange_in. lia.
  Qed.

  Lemma draw_rows_ok ys : Forall (fun y => 0 <= y < g_height g) ys ->
    forall p, box_on g ox oy p ->
    exists q, draw_rows g ctx conv ox oy p ys = Val q
      /\ overlaidb p q (fun px py =>
           if (0 <=? px - ox) && (px - ox <? g_width g) && existsb (Z.eqb (py - oy)) ys
           then ink_at px py else None).
  Proof.
    induction ys as [|y r IH]; intros Hys p B; cbn [draw_rows].
    - exists p. split; [reflexivity|]. apply overlaidb_refl. intros. cbn [existsb]. now rewrite andb_false_r.
    - inversion Hys as [|? ? Hy Hr]; subst.
      destruct (draw_row_ok y (zrange (g_width g)) Hy) with (p := p) as (q & E & D); auto.
      { apply Forall_forall. intros x I. now apply zrange_in in I. }
      rewrite E. cbn [bind]. destruct (IH Hr q (box_on_same _ _ _ D B)) as (q' & E' & D').
      exists q'. split; [auto|]. eapply overlaidb_trans; [|exact D|exact D']. intros px py. cbn [existsb].
      rewrite existsb_zrange. replace (py - oy =? y) with (py =? oy + y) by lia.
      destruct ((0 <=? px - ox) && (px - ox <? g_width g)), (existsb (Z.eqb (py - oy)) r), (py =? oy + y);
        cbn [andb orb]; auto; now destruct (ink_at px py).
  Qed.

  Lemma draw_all_ok (p : Raster P) : box_on g ox oy p ->
    exists q, draw_rows g ctx conv ox oy p (zrange (g_height g)) = Val q
      /\ overlaidb p q (fun px py =>
           if (0 <=? px - ox) && (px - ox <? g_width g) && ((0 <=? py - oy) && (py - oy <? g_height g))
           then ink_at px py else None).
  Proof.
    intros B. destruct (draw_rows_ok (zrange (g_height g))) with (p := p) as (q & E & D); auto.
    { apply Forall_forall. intros y I. now apply zrange_in in I. }
    exists q. split; [auto|]. destruct D as (W & H & D). unfold overlaidb. splits; auto. intros. rewrite D.
    now rewrite existsb_zrange.
  Qed.
End Draw.

Lemma draw_overlaid {P} g ctx (conv : rgb -> P) ox oy (p : Raster P) :
  graphic_fields g -> bitmap_complete g -> color_kind_ok g -> ctx_bytes ctx -> box_on g ox oy p ->
  exists q, draw_rows g ctx conv ox oy p (zrange (g_height g)) = Val q
    /\ Overlaid p q (fun x y c => exists c', Inks g ctx (x - ox) (y - oy) c' /\ c = conv c').
Proof.
  intros Hg C K Hc B.
  assert (Hp : forall x y, 0 <= x < g_width g -> 0 <= y < g_height g -> exists o, pixel_fn g x y ctx = Val o).
  { intros x y Hx Hy. destruct (pixel_fn_spec g ctx x y) as (o & E & _); eauto. }
  destruct (draw_all_ok g ctx conv ox oy Hp p B) as (q & E & W & H & D).
  exists q. split; [auto|]. unfold Overlaid. splits; auto. intros x y. rewrite D.
  destruct ((0 <=? x - ox) && (x - ox <? g_width g) && ((0 <=? y - oy) && (y - oy <? g_height g))) eqn:Bx.
  - assert (X : 0 <= x - ox < g_width g) by lia. assert (Y : 0 <= y - oy < g_height g) by lia.
    destruct (pixel_fn_spec g ctx _ _ Hg C K Hc X Y) as (o & Eo & Io).
    pose proof (PixelIs_Inks g ctx (x - ox) (y - oy) o) as PI.
    assert (PI' : forall c, o = Some c <-> Inks g ctx (x - ox) (y - oy) c).
    { apply PI; auto. apply Hg. }
    unfold ink_at. rewrite Eo. destruct o as [c|].
    + split.
      * intros c0 (c' & I & ->). apply PI' in I. congruence.
      * intros N. exfalso. apply (N (conv c)). exists c. split; [now apply PI'|auto].
    + split; [|reflexivity]. intros c0 (c' & I & ->). apply PI' in I. discriminate.
  - split; [|reflexivity]. intros c (c' & I & _). destruct I as (X & Y & _). lia.
Qed.
