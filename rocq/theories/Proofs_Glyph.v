(** Proofs about drawing glyphs. *)

From Verif Require Import Base Str Multi Color Oer Crc Raster Font Spec_Font Proofs_Str Proofs_Color
  Proofs_Oer Proofs_Font.
From Coq Require Import ZifyBool ZifyNat.
Ltac Zify.zify_post_hook ::= Z.div_mod_to_equations.

Lemma bit_test b i : 0 <= i -> negb (Z.land (Z.shiftr b i) 1 =? 0) = Z.testbit b i.
Proof.
  intros N. replace 1 with (Z.ones 1) by reflexivity. rewrite Z.land_ones by lia.
  change (2 ^ 1) with 2. pose proof (Z.testbit_spec' b i N) as T.
  rewrite Z.shiftr_div_pow2 by lia. rewrite <- T. now destruct (Z.testbit b i).
Qed.

Definition raster_small {R} (p : Raster R) : Prop :=
  r_width p < 2147483648 /\ r_height p < 2147483648.

Lemma in_raster_spec {R} (p : Raster R) x y : in_raster p x y = true <-> on_raster p x y.
Proof. unfold in_raster, on_raster. lia. Qed.

Lemma chk_i32_in md v : -2147483648 <= v < 2147483648 -> chk_i32 md v = Val v.
Proof. intros H. unfold chk_i32. destruct (Z.leb_spec (-2147483648) v), (Z.ltb_spec v 2147483648); cbn; auto; lia. Qed.

(** ** Plotting points *)

Fixpoint plot (md : mode) (page : Raster rgb) (cf : rgb) (ps : list (Z * Z)) : M (Raster rgb) :=
  match ps with
  | [] => Val page
  | (px, py) :: r =>
      let! page := (let! px := chk_i32 md px in
                    let! py := chk_i32 md py in
                    set_pixel page px py cf) in
      plot md page cf r
  end.

Lemma bind_bind {A B C} (m : M A) (f : A -> M B) (g : B -> M C) :
  bind (bind m f) g = bind m (fun x => bind (f x) g).
Proof. now destruct m. Qed.
Lemma bind_ext {A B} (m : M A) (f g : A -> M B) : (forall x, f x = g x) -> bind m f = bind m g.
Proof. intros H. destruct m; cbn; auto. Qed.
Lemma bind_ret {A} (m : M A) : bind m Val = m.
Proof. now destruct m. Qed.

Lemma plot_app md cf ps : forall qs page,
  plot md page cf (ps ++ qs) = let! q := plot md page cf ps in plot md q cf qs.
Proof.
  induction ps as [|[px py] ps IH]; intros; [reflexivity|]. cbn [app plot].
  etransitivity; [|symmetry; apply bind_bind]. apply bind_ext. auto.
Qed.

Definition reach (v : Z) : Prop := -2147483648 <= v < 4294967296.

Lemma plot_one md (page : Raster rgb) cf px py : raster_small page -> reach px -> reach py ->
  (on_raster page px py
   /\ (let! px := chk_i32 md px in let! py := chk_i32 md py in set_pixel page px py cf)
      = Val (mkRaster (r_width page) (r_height page)
               (fun x' y' => if (x' =? px) && (y' =? py) then cf else r_pixel page x' y')))
  \/ (~ on_raster page px py
      /\ (let! px := chk_i32 md px in let! py := chk_i32 md py in set_pixel page px py cf) = Panic).
Proof.
  intros [S1 S2] Hx Hy. unfold reach in *.
  destruct (in_raster page px py) eqn:E.
  - left. apply in_raster_spec in E. split; auto. destruct E as [E1 E2].
    rewrite !chk_i32_in by lia. cbn [bind]. unfold set_pixel.
    replace (in_raster page px py) with true; auto. symmetry. apply in_raster_spec. split; auto.
  - right. assert (N : ~ on_raster page px py) by (rewrite <- in_raster_spec; congruence). split; auto.
    assert (OUT : forall v, reach v -> ~ v < 2147483648 ->
              chk_i32 md v = Panic \/ exists u, chk_i32 md v = Val u /\ u < 0).
    { unfold reach. intros v Hv L. unfold chk_i32. destruct md.
      - left. destruct (Z.leb_spec (-2147483648) v), (Z.ltb_spec v 2147483648); cbn; auto; lia.
      - right. destruct (Z.leb_spec (-2147483648) v), (Z.ltb_spec v 2147483648); cbn; try lia.
        eexists. split; [reflexivity|]. lia. }
    assert (IN : forall v, reach v -> chk_i32 md v = Panic \/ exists u, chk_i32 md v = Val u /\ (u = v \/ u < 0)).
    { intros v Hv. destruct (Z_lt_ge_dec v 2147483648) as [L|L].
      - right. exists v. unfold reach in Hv. rewrite chk_i32_in by lia. auto.
      - destruct (OUT v Hv) as [|(u & ? & ?)]; [lia|auto|eauto]. }
    destruct (IN px Hx) as [->|(u & -> & Hu)]; [reflexivity|]. cbn [bind].
    destruct (IN py Hy) as [->|(v & -> & Hv)]; [reflexivity|]. cbn [bind]. unfold set_pixel.
    replace (in_raster page u v) with false; auto. symmetry. unfold in_raster, on_raster in *. lia.
Qed.

Lemma plot_cases md cf ps : forall page, raster_small page -> (forall px py, In (px, py) ps -> reach px /\ reach py) ->
  (exists q, plot md page cf ps = Val q /\ Painted page q (fun px py => In (px, py) ps) cf
     /\ forall px py, In (px, py) ps -> on_raster page px py)
  \/ (plot md page cf ps = Panic /\ exists px py, In (px, py) ps /\ ~ on_raster page px py).
Proof.
  induction ps as [|[px py] ps IH]; intros page Hs HP.
  - left. exists page. split; [reflexivity|]. split; [|intros ? ? []]. unfold Painted. splits; auto. intros x y. split; [intros []|auto].
  - cbn [plot]. destruct (HP px py (or_introl eq_refl)) as [Rx Ry].
    destruct (plot_one md page cf px py Hs Rx Ry) as [[O E]|[O E]]; rewrite E; cbn [bind].
    2:{ right. split; auto. exists px, py. split; [now left|auto]. }
    match goal with |- context [plot md ?p cf ps] => set (page1 := p) end.
    destruct (IH page1) as [(q & Eq & (P1 & P2 & P3) & Hin)|(Eq & u & v & I & N)]; auto.
    { intros u v I. apply HP. now right. }
    + left. exists q. split; auto. split.
      * unfold Painted. split; [exact P1|]. split; [exact P2|]. intros x y. destruct (P3 x y) as [A B].
        assert (D : In (x, y) ps \/ ~ In (x, y) ps).
        { destruct (in_dec (fun a b : Z * Z => ltac:(decide equality; apply Z.eq_dec)) (x, y) ps); auto. }
        assert (E1 : r_pixel page1 x y = if (x =? px) && (y =? py) then cf else r_pixel page x y) by reflexivity.
        split.
        -- intros [H|H]; auto. destruct D as [D|D]; auto. rewrite B by auto. rewrite E1. injection H as -> ->.
           now rewrite !Z.eqb_refl.
        -- intros H. assert (D' : ~ In (x, y) ps) by (intros J; apply H; now right). rewrite B by auto. rewrite E1.
           destruct ((x =? px) && (y =? py)) eqn:Q; auto. exfalso. apply H. left. f_equal; lia.
      * intros u v [I|I]; [injection I as -> ->; auto|]. apply Hin in I. exact I.
    + right. split; auto. exists u, v. split; [now right|]. exact N.
Qed.

(** ** The points of a glyph *)

(** Bit [i] of byte [j] is the point at [col], [row]. *)
Definition at_bit (w h j i col row : Z) : Prop :=
  0 <= col < w /\ 0 <= row
  /\ 8 * j + i = if row <? h then row * w + col else 8 * (octets (h * w) + (row - h) * octets w) + col.

Lemma at_bit_fun w h j i col row col' row' : 0 <= h -> 0 <= i < 8 ->
  at_bit w h j i col row -> at_bit w h j i col' row' -> col = col' /\ row = row'.
Proof.
  intros Hh Hi (C & R & E) (C' & R' & E'). assert (Hw : 0 < w) by lia.
  assert (HO : w <= 8 * octets w) by (unfold octets; lia).
  assert (HA : h * w <= 8 * octets (h * w)) by (unfold octets; lia).
  destruct (Z.ltb_spec row h), (Z.ltb_spec row' h).
  - assert (row = row') by nia. subst. lia.
  - exfalso. assert (row * w + col < h * w) by nia.
    assert (0 <= (row' - h) * octets w) by (apply Z.mul_nonneg_nonneg; lia). lia.
  - exfalso. assert (row' * w + col' < h * w) by nia.
    assert (0 <= (row - h) * octets w) by (apply Z.mul_nonneg_nonneg; lia). lia.
  - assert (row = row') by nia. subst. lia.
Qed.

Lemma at_bit_row w h j i col row : 0 <= h -> 0 <= i < 8 -> at_bit w h j i col row -> row <= h + j.
Proof.
  intros Hh Hi (C & R & E). assert (Hw : 0 < w) by lia. assert (HO : 1 <= octets w) by (unfold octets; lia).
  assert (0 <= octets (h * w)) by (unfold octets; nia).
  destruct (Z.ltb_spec row h).
  - assert (0 <= row * w) by nia. lia.
  - assert (row - h <= (row - h) * octets w) by nia. lia.
Qed.

Lemma at_bit_right w h j i xx yy : 0 <= h -> xx + 1 < w -> at_bit w h j i xx yy -> at_bit w h j (i + 1) (xx + 1) yy.
Proof. unfold at_bit. intros Hh Hx (C & R & E). splits; try lia. destruct (yy <? h); lia. Qed.

Lemma at_bit_down w h j i xx yy : 0 <= h -> w <= xx + 1 -> yy + 1 < h -> at_bit w h j i xx yy -> at_bit w h j (i + 1) 0 (yy + 1).
Proof.
  unfold at_bit. intros Hh Hx Hy (C & R & E). splits; try lia.
  replace (yy + 1 <? h) with true by lia. replace (yy <? h) with true in E by lia. nia.
Qed.

Lemma at_bit_byte w h j xx yy : 0 <= h -> at_bit w h j 8 xx yy -> at_bit w h (j + 1) 0 xx yy.
Proof. unfold at_bit. intros Hh (C & R & E). splits; try lia. Qed.

Lemma at_bit_break w h j i xx yy : 0 <= h -> 0 <= i < 8 -> w <= xx + 1 -> h <= yy + 1 -> at_bit w h j i xx yy ->
  at_bit w h (j + 1) 0 0 (yy + 1) /\ forall i' col row, i < i' < 8 -> ~ at_bit w h j i' col row.
Proof.
  intros Hh Hi Hx Hy (C & R & E). assert (xx = w - 1) as -> by lia. assert (Hw : 0 < w) by lia.
  assert (HO : 8 * octets w - 8 < w <= 8 * octets w) by (unfold octets; lia).
  assert (HA : 8 * octets (h * w) - 8 < h * w <= 8 * octets (h * w)) by (unfold octets; lia).
  unfold at_bit. remember (octets w) as B eqn:EB. remember (octets (h * w)) as A eqn:EA. clear EB EA.
  destruct (Z.ltb_spec yy h) as [L|L].
  - assert (h = yy + 1) as -> by lia. rewrite Z.mul_add_distr_r, Z.mul_1_l in HA. split.
    + splits; try lia. replace (yy + 1 <? yy + 1) with false by lia.
      replace ((yy + 1 - (yy + 1)) * B) with 0 by ring. lia.
    + intros i' col row Hi' (C' & R' & E'). destruct (Z.ltb_spec row (yy + 1)).
      * assert (row * w <= yy * w) by (apply Z.mul_le_mono_nonneg_r; lia). lia.
      * assert (0 <= (row - (yy + 1)) * B) by (apply Z.mul_nonneg_nonneg; lia). lia.
  - set (q := A + (yy - h) * B) in *. split.
    + splits; try lia. replace (yy + 1 <? h) with false by lia.
      replace (A + (yy + 1 - h) * B) with (q + B) by (unfold q; ring). lia.
    + intros i' col row Hi' (C' & R' & E'). destruct (Z.ltb_spec row h).
      * assert (0 <= (yy - h) * B) by (apply Z.mul_nonneg_nonneg; lia).
        assert (row * w + w <= h * w) by (rewrite <- (Z.mul_1_l w) at 2; rewrite <- Z.mul_add_distr_r; apply Z.mul_le_mono_nonneg_r; lia).
        unfold q in *. lia.
      * destruct (Z_le_gt_dec row yy) as [M|M].
        -- assert ((row - h) * B <= (yy - h) * B) by (apply Z.mul_le_mono_nonneg_r; lia). unfold q in *. lia.
        -- assert ((yy - h + 1) * B <= (row - h) * B) by (apply Z.mul_le_mono_nonneg_r; lia).
           rewrite Z.mul_add_distr_r, Z.mul_1_l in *. unfold q in *. lia.
Qed.

Definition shift (x y : Z) (p : Z * Z) : Z * Z := (x + fst p, y + snd p).

Lemma in_shift x y ps px py : In (px, py) (map (shift x y) ps) <-> In (px - x, py - y) ps.
Proof.
  rewrite in_map_iff. unfold shift. split.
  - intros ([c r] & E & I). cbn in E. injection E as <- <-.
    replace (x + c - x) with c by lia. now replace (y + r - y) with r by lia.
  - intros I. exists (px - x, py - y). cbn. split; auto. f_equal; lia.
Qed.

Lemma bits_plot cw h b j x y cf n : 0 <= cw <= 255 -> 0 <= h <= 255 -> 0 <= j < 1073741824 ->
  forall xx yy, (n <= 8)%nat -> at_bit (Z.max 1 cw) h j (8 - Z.of_nat n) xx yy ->
  exists ps xx' yy',
    (forall md page, render_bits md page x y cw h cf b (map Z.of_nat (seq (8 - n) n)) xx yy
       = let! q := plot md page cf (map (shift x y) ps) in Val (q, xx', yy'))
    /\ at_bit (Z.max 1 cw) h (j + 1) 0 xx' yy'
    /\ forall col row, In (col, row) ps <->
         exists i, 8 - Z.of_nat n <= i < 8 /\ at_bit (Z.max 1 cw) h j i col row /\ Z.testbit b (7 - i) = true.
Proof.
  intros Hcw Hh Hj. set (w := Z.max 1 cw). induction n as [|n IH]; intros xx yy Hn HA.
  - exists [], xx, yy. splits.
    + reflexivity.
    + apply at_bit_byte; [lia|]. exact HA.
    + intros col row. split; [intros []|intros (i & Hi & _); lia].
  - replace (seq (8 - S n) (S n)) with ((8 - S n)%nat :: seq (8 - n) n)
      by (cbn [seq]; do 2 f_equal; lia).
    set (i := 8 - Z.of_nat (S n)) in *. assert (Ei : Z.of_nat (8 - S n) = i) by (unfold i; lia).
    assert (Hi : 0 <= i < 8) by (unfold i; lia).
    assert (Ei1 : 8 - Z.of_nat n = i + 1) by (unfold i; lia).
    assert (HR : yy <= h + j) by (apply (at_bit_row w h j i xx); auto; lia).
    pose proof HA as (HX & HY & _).
    set (here := if Z.testbit b (7 - i) then [(xx, yy)] else []).
    assert (DRAW : forall md page,
      (if negb (Z.land (Z.shiftr b (7 - i)) 1 =? 0) then
         let! px := chk_i32 md (x + xx) in
         let! py := chk_i32 md (y + yy) in
         set_pixel page px py cf
       else Val page) = plot md page cf (map (shift x y) here)).
    { intros md page. rewrite bit_test by lia. unfold here. destruct (Z.testbit b (7 - i)); [|reflexivity].
      cbn [map shift fst snd plot]. now rewrite bind_ret. }
    assert (HERE : forall col row, In (col, row) here <-> at_bit w h j i col row /\ Z.testbit b (7 - i) = true).
    { intros col row. unfold here. destruct (Z.testbit b (7 - i)).
      - split.
        + intros [I|[]]. injection I as <- <-. auto.
        + intros [A _]. destruct (at_bit_fun w h j i xx yy col row) as [-> ->]; auto; [lia|]. now left.
      - split; [intros []|intros [_ X]; discriminate X]. }
    assert (REST : forall ps P, (forall col row, In (col, row) ps <-> P col row) ->
      (forall col row, P col row <-> exists k, i + 1 <= k < 8 /\ at_bit w h j k col row /\ Z.testbit b (7 - k) = true) ->
      forall col row, In (col, row) (here ++ ps) <->
        exists k, i <= k < 8 /\ at_bit w h j k col row /\ Z.testbit b (7 - k) = true).
    { intros ps P H1 H2 col row. rewrite in_app_iff, HERE, H1, H2. split.
      - intros [[A T]|(k & Hk & A & T)]; [exists i|exists k]; splits; auto; lia.
      - intros (k & Hk & A & T). destruct (Z.eq_dec k i) as [->|N]; [auto|]. right. exists k. splits; auto; lia. }
    cbn [map render_bits]. rewrite Ei.
    assert (W : (cw <=? xx + 1) = (w <=? xx + 1)) by (unfold w; lia). rewrite W.
    destruct (Z.leb_spec w (xx + 1)) as [L|L].
    + destruct (Z.leb_spec h (yy + 1)) as [L'|L'].
      * destruct (at_bit_break w h j i xx yy) as [A N]; auto; [lia|].
        exists here, 0, (yy + 1). splits; auto.
        -- intros md page. rewrite DRAW. apply bind_ext. intros q. rewrite chk_i32_in by lia. cbn [bind].
           now replace (h <=? yy + 1) with true by lia.
        -- intros col row. rewrite <- (app_nil_r here). apply (REST [] (fun _ _ => False)); [now cbn|].
           intros c r. split; [intros []|]. intros (k & Hk & X & _). apply (N k c r); auto; lia.
      * destruct (IH 0 (yy + 1)) as (ps & xx' & yy' & E & A & I); [lia|rewrite Ei1; apply at_bit_down with xx; auto; lia|].
        exists (here ++ ps), xx', yy'. splits; auto.
        -- intros md page. rewrite map_app, plot_app, bind_bind, DRAW. apply bind_ext. intros q.
           rewrite chk_i32_in by lia. cbn [bind]. replace (h <=? yy + 1) with false by lia. apply E.
        -- apply (REST ps _ I). intros. now rewrite Ei1.
    + destruct (IH (xx + 1) yy) as (ps & xx' & yy' & E & A & I); [lia|rewrite Ei1; apply at_bit_right; auto; lia|].
      exists (here ++ ps), xx', yy'. splits; auto.
      * intros md page. rewrite map_app, plot_app, bind_bind, DRAW. apply bind_ext. intros q. apply E.
      * apply (REST ps _ I). intros. now rewrite Ei1.
Qed.

Lemma bytes_plot cw h x y cf : 0 <= cw <= 255 -> 0 <= h <= 255 -> forall bytes j xx yy,
  0 <= j -> j + Z.of_nat (length bytes) <= 1073741824 -> at_bit (Z.max 1 cw) h j 0 xx yy ->
  exists ps,
    (forall md page, render_bytes md page x y cw h cf bytes xx yy = plot md page cf (map (shift x y) ps))
    /\ forall col row, In (col, row) ps <->
         exists k b i, nth_error bytes k = Some b /\ 0 <= i < 8 /\ Z.testbit b (7 - i) = true
           /\ at_bit (Z.max 1 cw) h (j + Z.of_nat k) i col row.
Proof.
  intros Hcw Hh. induction bytes as [|b bytes IH]; intros j xx yy Hj Hl HA.
  - exists []. split; [reflexivity|]. intros col row. split; [intros []|].
    intros (k & b & i & E & _). now destruct k.
  - cbn [length] in Hl. 
    destruct (bits_plot cw h b j x y cf 8 Hcw Hh ltac:(lia) xx yy (le_n _) HA) as (ps & xx' & yy' & E & A & I).
    destruct (IH (j + 1) xx' yy') as (qs & E' & I'); auto; try lia.
    exists (ps ++ qs). split.
    + intros md page. cbn [render_bytes]. change [0; 1; 2; 3; 4; 5; 6; 7] with (map Z.of_nat (seq (8 - 8) 8)).
      rewrite E, map_app, plot_app, bind_bind. apply bind_ext. intros q. cbn [bind]. apply E'.
    + intros col row. rewrite in_app_iff, I, I'. split.
      * intros [(i & Hi & X & T)|(k & c & i & N & Hi & T & X)].
        -- exists 0%nat, b, i. splits; auto; try lia. now replace (j + Z.of_nat 0) with j by lia.
        -- exists (S k), c, i. splits; auto; try lia. now replace (j + Z.of_nat (S k)) with (j + 1 + Z.of_nat k) by lia.
      * intros ([|k] & c & i & N & Hi & T & X).
        -- left. cbn in N. injection N as <-. exists i. splits; auto; try lia. now replace (j + Z.of_nat 0) with j in X by lia.
        -- right. cbn in N. exists k, c, i. splits; auto; try lia. now replace (j + Z.of_nat (S k)) with (j + 1 + Z.of_nat k) in X by lia.
Qed.

Lemma char_plot h c x y cf : char_fields c -> 0 <= h <= 255 ->
  exists ps, (forall md page, render_char md c page x y h cf = plot md page cf (map (shift x y) ps))
    /\ forall col row, In (col, row) ps <-> GlyphInks h c row col.
Proof.
  intros (_ & Hw & _ & Hl) Hh. unfold u8 in Hw.
  destruct (bytes_plot (c_width c) h x y cf ltac:(lia) Hh (c_bitmap c) 0 0 0) as (ps & E & I); try lia.
  { unfold at_bit. splits; try lia. destruct (Z.ltb_spec 0 h); [lia|]. replace h with 0 by lia. reflexivity. }
  exists ps. split; [exact E|]. intros col row. rewrite I. unfold GlyphInks, at_bit. cbv zeta. split.
  - intros (k & b & i & N & Hi & T & X & Y & Q). splits; try lia. exists k, b, i. splits; auto; lia.
  - intros (X & Y & k & b & i & N & Hi & T & Q). exists k, b, i. splits; auto; lia.
Qed.

Lemma inks_range h c row col : char_fields c -> 0 <= h <= 255 -> GlyphInks h c row col ->
  0 <= row <= 1073742079 /\ 0 <= col <= 255.
Proof.
  intros (_ & Hw & _ & Hl) Hh (R & C & k & b & i & N & Hi & T & Q). unfold u8 in Hw.
  assert (K : (k < length (c_bitmap c))%nat) by (apply nth_error_Some; congruence).
  assert (row <= h + Z.of_nat k) by (apply (at_bit_row (Z.max 1 (c_width c)) h (Z.of_nat k) i col); auto; [lia|]; unfold at_bit; auto).
  lia.
Qed.

(** Glyphs that fit their height draw their lit pixels. *)
Lemma inks_lit h c row col : 0 <= c_width c -> 0 <= h -> bitmap_fits h c ->
  (GlyphInks h c row col <-> row < h /\ Lit c row col).
Proof.
  intros Hw Hh HF. unfold bitmap_fits in HF. cbv zeta in HF. unfold GlyphInks, Lit. cbv zeta. split.
  - intros (R & C & k & b & i & N & Hi & T & Q).
    assert (K : (k < length (c_bitmap c))%nat) by (apply nth_error_Some; congruence).
    assert (HW : c_width c <> 0) by (intros E; rewrite E in HF; lia).
    replace (Z.max 1 (c_width c)) with (c_width c) in * by lia.
    assert (HA : h * c_width c <= 8 * octets (h * c_width c)) by (unfold octets; lia).
    assert (HO : 0 <= octets (c_width c)) by (unfold octets; lia).
    destruct (Z.ltb_spec row h).
    + splits; try lia. exists k, b. split; auto. exists i. splits; auto; lia.
    + exfalso. assert (0 <= (row - h) * octets (c_width c)) by nia. nia.
  - intros (L & C & R & k & b & N & i & Hi & Q & T).
    replace (Z.max 1 (c_width c)) with (c_width c) by lia. splits; try lia.
    exists k, b, i. splits; auto; try lia. replace (row <? h) with true by lia. lia.
Qed.

(** ** Text *)

Definition advance (sp xx : Z) : Z := if 0 <? xx then xx + sp else xx.

Definition end_of (sp : Z) (cs : list CharacterEntry) (xx : Z) : Z :=
  fold_left (add_width sp) (map c_width cs) xx.

Lemma add_advance sp w c : add_width sp w c = advance sp w + c.
Proof. unfold add_width, advance. destruct (0 <? w); lia. Qed.

Lemma text_plot f sp x y cf text cs : font_fields f -> Spells f text cs -> 0 <= sp ->
  -1073741824 <= x < 1073741824 -> forall xx, 0 <= xx -> end_of sp cs xx < 1073741824 ->
  exists ps,
    (forall md page rest, render_text_loop md f page (text ++ rest) x y sp cf xx
       = let! q := plot md page cf ps in render_text_loop md f q rest x y sp cf (end_of sp cs xx))
    /\ forall px py, In (px, py) ps <-> exists pre c post, cs = pre ++ c :: post
         /\ GlyphInks (f_height f) c (py - y) (px - x - advance sp (end_of sp pre xx)).
Proof.
  intros HF S Hsp Hx. pose proof HF as (_ & Uh & _ & _ & Hc & _). unfold u8 in Uh. rewrite Forall_forall in Hc.
  induction S as [|ch c text cs H S IH]; intros xx Hxx He.
  - exists []. split; [reflexivity|]. intros px py. split; [intros []|]. intros (pre & c & post & E & _). now destruct pre.
  - pose proof (Hc c (HasChar_In _ _ _ H)) as Hcf. pose proof Hcf as (_ & Uw & _). unfold u8 in Uw.
    unfold end_of in He. cbn [map fold_left] in He. rewrite add_advance in He.
    assert (A : 0 <= advance sp xx) by (unfold advance; destruct (0 <? xx); lia).
    assert (Q : advance sp xx + c_width c
                <= fold_left (add_width sp) (map c_width cs) (advance sp xx + c_width c)).
    { apply acc_mono; auto. apply (widths_nonneg f text); auto. apply HF. }
    destruct (char_plot (f_height f) c (x + advance sp xx) y cf Hcf ltac:(lia)) as (ps & E & I).
    destruct (IH (advance sp xx + c_width c)) as (qs & E' & I'); [lia|exact He|].
    exists (map (shift (x + advance sp xx) y) ps ++ qs). split.
    + intros md page rest. cbn [app render_text_loop]. rewrite (proj2 (character_spec f ch c) H).
      replace (if 0 <? xx then chk_i32 md (xx + sp) else Val xx) with (Val (advance sp xx)).
      2:{ unfold advance in *. destruct (0 <? xx); [rewrite chk_i32_in by lia|]; reflexivity. }
      cbn [bind]. rewrite chk_i32_in by lia. cbn [bind]. rewrite E, plot_app, bind_bind. apply bind_ext. intros q.
      rewrite chk_i32_in by lia. cbn [bind]. rewrite E'. apply bind_ext. intros r.
      unfold end_of. cbn [map fold_left]. now rewrite add_advance.
    + intros px py. rewrite in_app_iff, in_shift, I, I'. split.
      * intros [K|(pre & d & post & -> & K)].
        -- exists [], c, cs. split; auto. cbn [end_of map fold_left]. unfold end_of. cbn [map fold_left].
           now replace (px - x - advance sp xx) with (px - (x + advance sp xx)) by lia.
        -- exists (c :: pre), d, post. split; auto. unfold end_of in *. cbn [map fold_left]. now rewrite add_advance.
      * intros ([|c' pre] & d & post & N & K); injection N as <- ->.
        -- left. unfold end_of in K. cbn [map fold_left] in K.
           now replace (px - (x + advance sp xx)) with (px - x - advance sp xx) by lia.
        -- right. exists pre, d, post. split; auto. unfold end_of in *. cbn [map fold_left] in K. now rewrite add_advance in K.
Qed.

Lemma offset_advance sp ws : 0 <= sp -> Forall (fun c => 0 <= c) ws ->
  offset_after sp ws = advance sp (fold_left (add_width sp) ws 0).
Proof.
  intros Hs H. rewrite line_width_fold by auto. unfold offset_after, line_width, advance.
  assert (P : drop_zeros ws = [] \/ 0 < spread sp (drop_zeros ws)).
  { induction H as [|w ws Hw H IH]; [auto|]. destruct w as [|w|w]; cbn [drop_zeros]; [auto| |lia].
    right. destruct ws as [|v ws]; [cbn; lia|]. rewrite spread_cons by discriminate.

    assert (G : forall l, Forall (fun c => 0 <= c) l -> 0 <= spread sp l).
    { clear - Hs. induction l as [|a l IH]; intros F; [cbn; lia|]. inversion F; subst.
      destruct l; [cbn; lia|]. rewrite spread_cons by discriminate. specialize (IH H2). lia. }
    specialize (G _ H). lia. }
  destruct (drop_zeros ws) as [|w l]; [reflexivity|]. destruct P as [P|P]; [discriminate|].
  destruct (Z.ltb_spec 0 (spread sp (w :: l))); [reflexivity|lia].
Qed.

(** Text is drawn by plotting the pixels of its glyphs. *)
Lemma text_points f sp x y cf text cs : font_fields f -> Spells f text cs -> 0 <= sp ->
  -1073741824 <= x < 1073741824 -> line_width sp (map c_width cs) < 1073741824 ->
  exists ps,
    (forall md page rest, font_render_text md f page (text ++ rest) x y sp cf
       = let! q := plot md page cf ps in render_text_loop md f q rest x y sp cf (end_of sp cs 0))
    /\ forall px py, In (px, py) ps <-> InkText sp (f_height f) cs x y px py.
Proof.
  intros HF S Hsp Hx HL.
  assert (W : Forall (fun c => 0 <= c) (map c_width cs)) by (apply (widths_nonneg f text); [apply HF|auto]).
  destruct (text_plot f sp x y cf text cs HF S Hsp Hx 0) as (ps & E & I); [lia| |].
  { unfold end_of. now rewrite line_width_fold. }
  exists ps. split; [exact E|]. intros px py. rewrite I. unfold InkText.
  assert (EO : forall pre c post, cs = pre ++ c :: post -> offset_after sp (map c_width pre) = advance sp (end_of sp pre 0)).
  { intros pre c post ->. rewrite map_app, Forall_app in W. apply offset_advance; tauto. }
  split; intros (pre & c & post & Q & K); exists pre, c, post; (split; [exact Q|]); [rewrite (EO _ _ _ Q)|rewrite <- (EO _ _ _ Q)]; exact K.
Qed.

Lemma ink_reach f sp x y text cs px py : font_fields f -> Spells f text cs -> 0 <= sp ->
  -1073741824 <= x < 1073741824 -> -1073741824 <= y < 1073741824 -> line_width sp (map c_width cs) < 1073741824 ->
  InkText sp (f_height f) cs x y px py -> reach px /\ reach py.
Proof.
  intros HF S Hsp Hx Hy HL (pre & c & post & E & K).
  assert (W : Forall (fun c => 0 <= c) (map c_width cs)) by (apply (widths_nonneg f text); [apply HF|auto]).
  pose proof HF as (_ & Uh & _ & _ & Hc & _). unfold u8 in Uh. rewrite Forall_forall in Hc.
  assert (Ic : In c (f_characters f)).
  { unfold Spells in S. rewrite E in S. apply Forall2_app_inv_r in S as (t1 & t2 & _ & Q & _).
    inversion Q; subst. eapply HasChar_In; eauto. }
  apply inks_range in K as [K1 K2]; auto; [|lia].
  rewrite <- line_width_fold in HL by auto. subst cs. rewrite map_app in *. apply Forall_app in W as [W1 W2].
  cbn [map] in *. inversion W2 as [|? ? Wc Wp]; subst. rewrite offset_advance in K2 by auto.
  rewrite fold_left_app in HL. cbn [fold_left] in HL. rewrite add_advance in HL.
  set (u := fold_left (add_width sp) (map c_width pre) 0) in *.
  assert (0 <= u) by (unfold u; apply acc_mono; auto; lia).
  assert (A : 0 <= advance sp u) by (unfold advance; destruct (0 <? u); lia).
  pose proof (acc_mono sp (map c_width post) (advance sp u + c_width c) Hsp Wp). unfold reach. lia.
Qed.

Lemma Painted_ext {P} (p q : Raster P) S T cf : (forall x y, S x y <-> T x y) -> Painted p q S cf -> Painted p q T cf.
Proof. unfold Painted. intros H (A & B & C). splits; auto. intros x y. destruct (C x y). rewrite <- H. auto. Qed.

Lemma in_points_dec (ps : list (Z * Z)) x y : In (x, y) ps \/ ~ In (x, y) ps.
Proof. destruct (in_dec (fun a b : Z * Z => ltac:(decide equality; apply Z.eq_dec)) (x, y) ps); auto. Qed.

Lemma ink_dec f sp x y text cs px py : font_fields f -> Spells f text cs -> 0 <= sp ->
  -1073741824 <= x < 1073741824 -> line_width sp (map c_width cs) < 1073741824 ->
  InkText sp (f_height f) cs x y px py \/ ~ InkText sp (f_height f) cs x y px py.
Proof.
  intros HF S Hsp Hx HL. destruct (text_points f sp x y (0, 0, 0) text cs HF S Hsp Hx HL) as (ps & _ & I).
  rewrite <- I. apply in_points_dec.
Qed.

(** Drawing text, whatever the glyphs: it paints what they draw, or panics when
    that is not on the page. *)
Lemma text_draw md f page text rest x y sp cf cs :
  font_fields f -> Spells f text cs -> 0 <= sp -> raster_small page ->
  -1073741824 <= x < 1073741824 -> line_width sp (map c_width cs) < 1073741824 ->
  (forall px py, InkText sp (f_height f) cs x y px py -> reach px /\ reach py) ->
  (exists page', font_render_text md f page (text ++ rest) x y sp cf
       = render_text_loop md f page' rest x y sp cf (end_of sp cs 0)
     /\ Painted page page' (InkText sp (f_height f) cs x y) cf
     /\ forall px py, InkText sp (f_height f) cs x y px py -> on_raster page px py)
  \/ (font_render_text md f page (text ++ rest) x y sp cf = Panic
     /\ exists px py, InkText sp (f_height f) cs x y px py /\ ~ on_raster page px py).
Proof.
  intros HF S Hsp Hs Hx HL HR. destruct (text_points f sp x y cf text cs HF S Hsp Hx HL) as (ps & E & I).
  rewrite E. destruct (plot_cases md cf ps page Hs) as [(q & Q & D & O)|(Q & px & py & J & N)].
  - intros px py J. apply HR. now apply I.
  - left. exists q. rewrite Q. cbn [bind]. split; [reflexivity|]. split.
    + eapply Painted_ext; [|exact D]. exact I.
    + intros px py J. apply O. now apply I.
  - right. rewrite Q. split; [reflexivity|]. exists px, py. split; auto. now apply I.
Qed.

Lemma render_text_exact md f page text x y sp cf cs :
  font_fields f -> Spells f text cs -> 0 <= sp -> raster_small page ->
  -1073741824 <= x < 1073741824 -> -1073741824 <= y < 1073741824 -> line_width sp (map c_width cs) < 1073741824 ->
  (exists page', font_render_text md f page text x y sp cf = Val (Ok page')
     /\ Painted page page' (InkText sp (f_height f) cs x y) cf
     /\ forall px py, InkText sp (f_height f) cs x y px py -> on_raster page px py)
  \/ (font_render_text md f page text x y sp cf = Panic
     /\ exists px py, InkText sp (f_height f) cs x y px py /\ ~ on_raster page px py).
Proof.
  intros HF S Hsp Hs Hx Hy HL. rewrite <- (app_nil_r text).
  destruct (text_draw md f page text [] x y sp cf cs) as [(q & E & H)|H]; auto.
  - intros px py. now apply (ink_reach f sp x y text cs).
  - left. exists q. split; auto.
Qed.

Lemma render_missing_exact md f page text x y sp cf cs ch :
  font_fields f -> FirstMissing f text cs ch -> 0 <= sp -> raster_small page ->
  -1073741824 <= x < 1073741824 -> -1073741824 <= y < 1073741824 -> line_width sp (map c_width cs) < 1073741824 ->
  (font_render_text md f page text x y sp cf = Val (Err (FInvalidChar ch))
     /\ forall px py, InkText sp (f_height f) cs x y px py -> on_raster page px py)
  \/ (font_render_text md f page text x y sp cf = Panic
     /\ exists px py, InkText sp (f_height f) cs x y px py /\ ~ on_raster page px py).
Proof.
  intros HF (pre & post & -> & S & M) Hsp Hs Hx Hy HL.
  destruct (text_draw md f page pre (ch :: post) x y sp cf cs) as [(q & E & _ & O)|H]; auto.
  - intros px py. now apply (ink_reach f sp x y pre cs).
  - left. rewrite E. cbn [render_text_loop]. apply character_none in M. rewrite M. auto.
Qed.

(** ** Sound glyphs *)

Lemma LitText_box sp h cs x y px py : 0 <= sp -> Forall (fun c => 0 <= c) (map c_width cs) ->
  LitText sp h cs x y px py -> x <= px < x + line_width sp (map c_width cs) /\ y <= py < y + h.
Proof.
  intros Hs Hw (pre & c & post & -> & L & C & R & _).
  rewrite <- line_width_fold by auto. rewrite map_app in *. apply Forall_app in Hw as [W1 W2].
  cbn [map] in *. inversion W2 as [|? ? Wc Wp]; subst. rewrite offset_advance in C by auto.
  rewrite fold_left_app. cbn [fold_left]. rewrite add_advance.
  set (u := fold_left (add_width sp) (map c_width pre) 0) in *.
  assert (0 <= u) by (unfold u; apply acc_mono; auto; lia).
  assert (A : 0 <= advance sp u) by (unfold advance; destruct (0 <? u); lia).
  pose proof (acc_mono sp (map c_width post) (advance sp u + c_width c) Hs Wp). lia.
Qed.

Lemma valid_sound f : valid_font f -> sound_font f.
Proof. intros (_ & _ & H & _). exact H. Qed.

Lemma spelled_ok f text cs : font_fields f -> sound_font f -> Spells f text cs -> ~ In 0 text ->
  forall c, In c cs -> 0 <= c_width c /\ bitmap_fits (f_height f) c.
Proof.
  intros (_ & _ & _ & _ & Hc & _) Vb S. rewrite Forall_forall in Hc.
  induction S as [|ch d text cs H S IH]; [contradiction|]. intros N c [<-|I].
  - pose proof (HasChar_In _ _ _ H) as J. split; [destruct (Hc d J) as (_ & W & _); unfold u8 in W; lia|].
    apply Vb; auto. destruct H as (_ & E & _). unfold used. rewrite E. intros ->. apply N. cbn; auto.
  - apply IH; auto. intros J. apply N. cbn; auto.
Qed.

Lemma ink_lit f text cs sp x y px py : font_fields f -> sound_font f -> Spells f text cs -> ~ In 0 text ->
  (InkText sp (f_height f) cs x y px py <-> LitText sp (f_height f) cs x y px py).
Proof.
  intros HF HS S N. pose proof (spelled_ok f text cs HF HS S N) as K.
  assert (Hh : 0 <= f_height f) by (destruct HF as (_ & Uh & _); unfold u8 in Uh; lia).
  unfold InkText, LitText. split.
  - intros (pre & c & post & E & I). destruct (K c) as [W B]; [subst; apply in_elt|].
    apply inks_lit in I as [L I]; auto. exists pre, c, post. auto.
  - intros (pre & c & post & E & L & I). destruct (K c) as [W B]; [subst; apply in_elt|].
    exists pre, c, post. split; auto. apply inks_lit; auto.
Qed.

Lemma on_reach {R} (p : Raster R) x y : raster_small p -> on_raster p x y -> reach x /\ reach y.
Proof. unfold raster_small, on_raster, reach. lia. Qed.

Lemma render_text_spec md f page text x y sp cf cs :
  font_fields f -> sound_font f -> Spells f text cs -> ~ In 0 text -> 0 <= sp ->
  raster_small page -> -1073741824 <= x < 1073741824 ->
  line_width sp (map c_width cs) < 1073741824 ->
  (forall px py, LitText sp (f_height f) cs x y px py -> on_raster page px py) ->
  exists page', font_render_text md f page text x y sp cf = Val (Ok page')
    /\ Painted page page' (LitText sp (f_height f) cs x y) cf.
Proof.
  intros Hf V S N Hsp Hs Hx L Hin. pose proof (ink_lit f text cs sp x y) as IL.
  destruct (text_draw md f page text [] x y sp cf cs) as [(q & E & D & _)|(_ & px & py & I & O)]; auto.
  - intros px py I. apply IL in I; auto. apply (on_reach page); auto.
  - rewrite app_nil_r in E. exists q. split; [rewrite E; reflexivity|]. eapply Painted_ext; [|exact D].
    intros. now apply IL.
  - exfalso. apply O, Hin. now apply IL.
Qed.

Lemma render_text_missing md f page text x y sp cf cs ch :
  font_fields f -> sound_font f -> FirstMissing f text cs ch -> ~ In 0 text -> 0 <= sp ->
  raster_small page -> -1073741824 <= x < 1073741824 ->
  line_width sp (map c_width cs) < 1073741824 ->
  (forall px py, LitText sp (f_height f) cs x y px py -> on_raster page px py) ->
  font_render_text md f page text x y sp cf = Val (Err (FInvalidChar ch)).
Proof.
  intros Hf V (pre & post & -> & S & M) N Hsp Hs Hx L Hin.
  assert (N' : ~ In 0 pre) by (intros I; apply N; rewrite in_app_iff; auto).
  pose proof (ink_lit f pre cs sp x y) as IL.
  destruct (text_draw md f page pre (ch :: post) x y sp cf cs) as [(q & E & D & _)|(_ & px & py & I & O)]; auto.
  - intros px py I. apply IL in I; auto. apply (on_reach page); auto.
  - rewrite E. cbn [render_text_loop]. apply character_none in M. now rewrite M.
  - exfalso. apply O, Hin. now apply IL.
Qed.

(** The glyph's lit pixels. *)
Definition litb (c : CharacterEntry) (row col : Z) : bool :=
  let pos := row * c_width c + col in
  (0 <=? col) && (col <? c_width c) && (0 <=? row)
  && match nth_error (c_bitmap c) (Z.to_nat (pos / 8)) with
     | Some b => Z.testbit b (7 - pos mod 8)
     | None => false
     end.

Lemma litb_spec c row col : litb c row col = true <-> Lit c row col.
Proof.
  unfold litb, Lit. set (pos := row * c_width c + col). split.
  - intros H. rewrite !andb_true_iff in H. destruct H as [[[H1 H2] H3] H].
    assert (0 <= pos) by (unfold pos; nia).
    splits; try lia. destruct (nth_error (c_bitmap c) (Z.to_nat (pos / 8))) as [b|] eqn:N; [|discriminate].
    exists (Z.to_nat (pos / 8)), b. split; [auto|]. exists (pos mod 8). splits; auto; lia.
  - intros (H1 & H2 & k & b & N & i & Hi & E & T).
    replace (Z.to_nat (pos / 8)) with k by lia. replace (pos mod 8) with i by lia.
    rewrite N, T. lia.
Qed.

Lemma is_pixel_lit_spec md c row col : 0 <= row -> 0 <= col -> 0 <= c_width c ->
  row * c_width c + col < 18446744073709551616 ->
  exists b, is_pixel_lit md c row col = Val b /\ (b = true <-> Lit c row col).
Proof.
  intros Hr Hc Hw L. exists (litb c row col). split; [|apply litb_spec]. unfold is_pixel_lit, litb, chk64.
  destruct (Z.ltb_spec col (c_width c)) as [B|B].
  2:{ now rewrite andb_false_r. }
  rewrite chk_in by nia. cbn [bind]. rewrite chk_in by nia. cbn [bind].
  set (pos := row * c_width c + col). assert (0 <= pos) by (unfold pos; nia).
  replace (0 <=? col) with true by lia. replace (0 <=? row) with true by lia. cbn [andb].
  destruct (Z.ltb_spec (pos / 8) (Z.of_nat (length (c_bitmap c)))) as [G|G].
  - unfold index. replace (0 <=? pos / 8) with true by lia.
    destruct (nth_error (c_bitmap c) (Z.to_nat (pos / 8))) as [b|] eqn:N.
    2:{ apply nth_error_None in N. lia. }
    cbn [bind]. assert (E : Z.land pos 7 = pos mod 8).
    { change 7 with (Z.ones 3). rewrite Z.land_ones by lia. reflexivity. }
    rewrite E, bit_test by lia. reflexivity.
  - assert (N : nth_error (c_bitmap c) (Z.to_nat (pos / 8)) = None) by (apply nth_error_None; lia).
    now rewrite N.
Qed.
