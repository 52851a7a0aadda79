(** Hexadecimal characters written as text. *)

From Coq Require Import String Lia ZifyBool.
From Verif Require Import Base Str Multi Color Raster Font Graphic Config Sign Render
  Spec_Multi Spec_Color Spec_Sign Spec_Render Spec_Layout Spec_Page Spec_Spell
  Proofs_Str Proofs_Split Proofs_Norm Proofs_Iter Proofs_Machine Proofs_Reach Proofs_Pages Proofs_Fail.
Open Scope list_scope.

(** ** Spans matter by their text and settings *)

Definition SpanSame (s t : Span) : Prop := span_state s = span_state t /\ span_str s = span_str t.

Lemma same_width md s t fonts : SpanSame s t -> span_width md s fonts = span_width md t fonts.
Proof. intros [E F]. unfold span_width, char_spacing_fonts. now rewrite E, F. Qed.

Lemma same_between s t p q fonts : SpanSame s t -> SpanSame p q -> char_spacing_between s p fonts = char_spacing_between t q fonts.
Proof. intros [E _] [F _]. unfold char_spacing_between, char_spacing_fonts. now rewrite E, F. Qed.

Definition OptSame (p q : option Span) : Prop :=
  match p, q with Some s, Some t => SpanSame s t | None, None => True | _, _ => False end.

Lemma same_horiz md fonts rs l m : Forall2 SpanSame l m -> forall p q b a, OptSame p q ->
  offset_horiz_loop md fonts rs l p b a = offset_horiz_loop md fonts rs m q b a.
Proof.
  induction 1 as [|s t l m H _ IH]; intros p q b a HO; cbn [offset_horiz_loop]; [reflexivity|].
  pose proof H as [E _]. rewrite (same_width md s t fonts H), E.
  assert (X : forall k, (match p with
         | Some ps => try (Val (char_spacing_between s ps fonts)) (fun w => k w)
         | None => Val (Ok (b, a)) end)
       = (match q with
         | Some ps => try (Val (char_spacing_between t ps fonts)) (fun w => k w)
         | None => Val (Ok (b, a)) end)).
  { intros k. destruct p as [p|], q as [q|]; cbn in HO; try contradiction; auto. now rewrite (same_between s t p q fonts H HO). }
  rewrite X. destruct (match q with Some _ => _ | None => _ end) as [[[b' a']|e]| |]; cbn [try]; auto.
  destruct (span_width _ _ _) as [[w|e]| |]; cbn [try]; auto.
  destruct (_ <? _); destruct (chk16 _ _); cbn [bind]; auto.
Qed.

Lemma same_filter f l m : (forall s t, SpanSame s t -> f s = f t) -> Forall2 SpanSame l m -> Forall2 SpanSame (filter f l) (filter f m).
Proof.
  intros Hf. induction 1 as [|s t l m H _ IH]; cbn [filter]; [constructor|]. rewrite (Hf s t H). destruct (f t); auto.
Qed.

Lemma same_offset_horiz md d l m s t : Forall2 SpanSame l m -> SpanSame s t -> offset_horiz md d l s = offset_horiz md d m t.
Proof.
  intros HL [E _]. unfold offset_horiz. rewrite E.
  rewrite (same_horiz md (d_fonts d) (span_state t) _ (filter (fun s0 => matches_span (span_state t) (span_state s0)) m)) with (q := None); auto; [|exact I].
  apply same_filter; auto. intros u v [-> _]. reflexivity.
Qed.

Lemma same_x md d l m s t : Forall2 SpanSame l m -> SpanSame s t -> span_x md d l s = span_x md d m t.
Proof.
  intros HL H. pose proof H as [E _]. unfold span_x, span_x_left, span_x_center, span_x_right.
  now rewrite (same_offset_horiz md d l m s t HL H), E.
Qed.

Lemma same_collect fonts l m : Forall2 SpanSame l m -> forall ls, collect_lines fonts l ls = collect_lines fonts m ls.
Proof.
  induction 1 as [|s t l m [E _] _ IH]; intros ls; cbn [collect_lines]; [reflexivity|].
  unfold span_height, span_font_spacing, span_line_spacing. rewrite E. destruct (rs_get_font _ _); [|reflexivity].
  destruct (_ <=? _); apply IH.
Qed.

Lemma same_y md d l m s t : Forall2 SpanSame l m -> SpanSame s t -> span_y md d l s = span_y md d m t.
Proof.
  intros HL H. pose proof H as [E _].
  assert (X : offset_vert md d l s = offset_vert md d m t).
  { unfold offset_vert. rewrite E. rewrite (same_collect (d_fonts d) _ (filter (fun s0 => matches_line (span_state t) (span_state s0)) m)); auto.
    apply same_filter; auto. intros u v [-> _]. reflexivity. }
  unfold span_y, baseline, baseline_top, baseline_middle, baseline_bottom, span_height. now rewrite X, E.
Qed.

Lemma same_spans md d all all' : Forall2 SpanSame all all' -> forall l m, Forall2 SpanSame l m -> forall raster,
  render_spans_loop md d all l raster = render_spans_loop md d all' m raster.
Proof.
  intros HA. induction 1 as [|s t l m H _ IH]; intros raster; cbn [render_spans_loop]; [reflexivity|].
  rewrite (same_x md d all all' s t HA H), (same_y md d all all' s t HA H). pose proof H as [E F]. rewrite E.
  unfold span_render_text, char_spacing_font. rewrite E, F.
  destruct (span_x _ _ _ _) as [[x|e]| |]; cbn [try]; auto. destruct (span_y _ _ _ _) as [[y|e]| |]; cbn [try]; auto.
  destruct (rs_get_font _ _); cbn [try]; auto. destruct (map_err _ _) as [[q|e]| |]; cbn [try]; auto.
Qed.

Lemma same_just l m : Forall2 SpanSame l m -> forall jp jl ln, check_just_loop l jp jl ln = check_just_loop m jp jl ln.
Proof.
  induction 1 as [|s t l m [E _] _ IH]; intros; cbn [check_just_loop]; [reflexivity|]. rewrite E. destruct (_ || _); auto.
Qed.

Lemma same_render md d l m raster : Forall2 SpanSame l m -> render_text_spans md d l raster = render_text_spans md d m raster.
Proof.
  intros H. unfold render_text_spans, check_justification. rewrite (same_just l m H).
  destruct (check_just_loop _ _ _ _); cbn [try]; auto. now apply same_spans.
Qed.

(** ** Pages *)

Definition OutS (x y : M (result Value SyntaxError)) : Prop := exists r s, x = Val r /\ y = Val s /\ SpelledOut r s.

Lemma hex_span rs c : is_char c -> c <> 0 -> SpanSame (SpHex rs (fstr4 c)) (SpText rs [c]).
Proof.
  intros _ H. split; [reflexivity|]. cbn [span_str]. unfold fstr4. cbn [to_terminator].
  destruct (Z.eqb_spec c 0); [contradiction|]. f_equal. destruct (Z.to_nat (4 - utf8_len c)); reflexivity.
Qed.

Lemma char_b c : is_char c -> is_charb c = true.
Proof. unfold is_char, is_charb. lia. Qed.

Lemma check_spell d : Lists d THc -> forall xs ys, Forall2 OutS xs ys -> check_unsupported d (bare xs) = check_unsupported d (bare ys).
Proof.
  intros HL. induction 1 as [|x y xs ys (r & s & -> & -> & H) _ IH]; [reflexivity|]. cbn [bare map check_unsupported try].
  fold (bare xs). fold (bare ys). destruct H as [r|c _ _].
  - rewrite IH. reflexivity.
  - cbn [try value_tag]. rewrite (proj2 (contains_lists d THc) HL). exact IH.
Qed.

Lemma update_spell ds xs ys : Forall2 OutS xs ys -> forall rs, update_page_loop ds (bare xs) rs = update_page_loop ds (bare ys) rs.
Proof.
  induction 1 as [|x y xs ys (r & s & -> & -> & H) _ IH]; intros rs; [reflexivity|]. cbn [bare map update_page_loop bind].
  fold (bare xs). fold (bare ys). destruct H as [[v|e]|c _ _]; auto.
  destruct v; auto; destruct (set_background _ _ _) as [c0 [u|e]]; auto.
Qed.

Lemma graphics_spell md d xs ys : Forall2 OutS xs ys -> forall ctx raster,
  render_graphics_loop md d (bare xs) ctx raster = render_graphics_loop md d (bare ys) ctx raster.
Proof.
  induction 1 as [|x y xs ys (r & s & -> & -> & H) _ IH]; intros ctx raster; [reflexivity|]. cbn [bare map render_graphics_loop try].
  fold (bare xs). fold (bare ys). destruct H as [[v|e]|c _ _]; cbn [try]; auto. destruct v; auto.
  - destruct (set_background _ _ _) as [c0 [u|e]]; cbn [try]; auto.
  - destruct (set_foreground _ _ _) as [c0 [u|e]]; cbn [try]; auto.
  - destruct (set_foreground _ _ _) as [c0 [u|e]]; cbn [try]; auto. destruct (render_rect _ _ _ _ _) as [[q|e]| |]; cbn [try]; auto.
  - destruct p as [[[x y] i]|]; (destruct (get_graphic _ _ _) as [g|e]; cbn [try]; [|reflexivity]);
        (destruct (map_err _ _) as [[q|e]| |]; cbn [try]; auto).
Qed.

Definition EndS (e e' : AEnd) : Prop :=
  a_rs e = a_rs e' /\ a_state e = a_state e' /\ Forall2 SpanSame (a_spans e) (a_spans e') /\ a_res e = a_res e'
  /\ Forall2 OutS (a_rest e) (a_rest e').

Lemma rtr_spell md d ds po xs ys : Forall2 OutS xs ys -> forall rs sp sp' lb, Forall2 SpanSame sp sp' ->
  MRel EndS (a_rtr md d ds po xs rs sp lb) (a_rtr md d ds po ys rs sp' lb).
Proof.
  induction 1 as [|x y xs ys (r & s & -> & -> & H) HF IH]; intros rs sp sp' lb HS; cbn [a_rtr bind].
  { unfold EndS. cbn. splits; auto. }
  assert (HE : forall rs st res, MRel EndS (Val (mkA rs st xs sp res)) (Val (mkA rs st ys sp' res))).
  { intros. unfold EndS. cbn. splits; auto. }
  assert (HA : forall s t, SpanSame s t -> Forall2 SpanSame (sp ++ [s]) (sp' ++ [t])).
  { intros. apply Forall2_app; auto. }
  assert (HN : forall n k k', (forall m, MRel EndS (k m) (k' m)) -> MRel EndS (bind (chk8 md n) k) (bind (chk8 md n) k')).
  { intros n k k' Hk. destruct (chk8 md n); cbn [bind]; auto; exact I. }
  destruct H as [[v|e]|c Hc H0]; auto.
  - destruct v; cbv zeta; auto.
    + destruct (set_foreground _ _ _) as [c0 [u|e]]; auto.
    + destruct (is_charb c); auto. apply HN. intros m. apply IH. apply HA. split; reflexivity.
    + destruct j as [[]|]; auto.
    + destruct j as [[]|]; auto; (destruct (negb _); auto).
    + match goal with |- context [if ?c then Val _ else _] => destruct c end; auto. apply HN. intros m. apply IH.
      destruct lb; auto. apply HA. split; reflexivity.
    + destruct (_ && _); auto.
    + apply HN. intros m. apply IH. apply HA. split; reflexivity.
    + destruct (update_text_rectangle _ _ _ _) as [[q|]| |]; cbn [bind]; auto; exact I.
  - cbv zeta. rewrite (char_b c Hc). apply HN. intros m. apply IH. apply HA. now apply hex_span.
Qed.

Definition PS (p q : AP) : Prop := ap_rs p = ap_rs q /\ ap_state p = ap_state q /\ Forall2 OutS (ap_rest p) (ap_rest q).

Lemma loop_spell md d fuel : forall n p q raster, PS p q ->
  MRel (fun x y => PS (fst x) (fst y) /\ snd x = snd y) (a_page_loop md d fuel n p raster) (a_page_loop md d fuel n q raster).
Proof.
  induction fuel as [|f IH]; intros n p q raster HP; [exact I|]. pose proof HP as (ER & ES & HF). cbn [a_page_loop]. rewrite <- ES.
  destruct (ap_state p) as [[|]| |] eqn:E; try (split; auto; fail). rewrite <- ER, (graphics_spell md d _ _ HF).
  destruct (render_graphics_loop _ _ _ _ _) as [[r|e]| |]; cbn [bind]; try exact I; [|split; auto].
  unfold a_text_rect. rewrite <- ER.
  pose proof (rtr_spell md d (rs_new d) (0 <? rs_off_time (ap_rs p)) _ _ HF (ap_rs p) [] [] true (Forall2_nil _)) as HX.
  destruct (a_rtr _ _ _ _ _ _ _ _) as [e| |], (a_rtr _ _ _ _ _ _ _ _) as [e'| |]; cbn in HX; try contradiction; cbn [bind]; auto.
  destruct HX as (X1 & X2 & X3 & X4 & X5). rewrite <- X4, <- X1, <- X2. destruct (a_res e) as [[]|er]; cbn [bind].
  2:{ split; auto. unfold PS. cbn. auto. }
  rewrite (same_render md d _ _ r X3). destruct (render_text_spans _ _ _ _) as [[q2|er]| |]; cbn [bind]; try exact I.
  - destruct (MAX_TEXT_RECTANGLES <? n + 1); [split; auto; unfold PS; cbn; auto|]. apply IH. unfold PS. cbn. auto.
  - split; auto. unfold PS. cbn. auto.
Qed.

Lemma next_spell md d p q : Lists d THc -> PS p q -> MRel (fun x y => fst x = fst y /\ PS (snd x) (snd y)) (a_next md d p) (a_next md d q).
Proof.
  intros HL HP. pose proof HP as (ER & ES & HF). unfold a_next. rewrite <- ES. destruct (ap_state p) as [b|b|] eqn:E; [| |split; auto].
  2:{ cbn. rewrite <- ER. split; auto. unfold PS. cbn. auto. }
  unfold a_on_page. cbv zeta. rewrite (check_spell d HL _ _ HF). destruct (check_unsupported _ _) as [[u|e]| |]; cbn [bind]; try exact I.
  2:{ split; auto. }
  rewrite <- ER. unfold update_page_state. cbv zeta. rewrite (update_spell (rs_new d) _ _ HF).
  destruct (update_page_loop _ _ _) as [[rs [u1|e]]| |]; cbn [bind]; try exact I.
  2:{ split; auto. unfold PS. cbn. rewrite <- ES, E. auto. }
  assert (HQ : PS (mkAP rs (PsOn false) (ap_rest p)) (mkAP rs (PsOn false) (ap_rest q))) by (unfold PS; cbn; auto).
  pose proof (loop_spell md d 52 0 _ _ (build_raster rs) HQ) as HX.
  destruct (a_page_loop md d 52 0 (mkAP rs (PsOn false) (ap_rest p)) (build_raster rs)) as [[p1 r1]| |],
    (a_page_loop md d 52 0 (mkAP rs (PsOn false) (ap_rest q)) (build_raster rs)) as [[q1 r2]| |]; cbn in HX; try contradiction; cbn [bind]; auto.
  destruct HX as [HX HY]. cbn [fst snd] in *. subst r2. destruct r1 as [r|e]; cbn; split; auto. destruct HX as (-> & _). reflexivity.
Qed.

Lemma take_spell md d n : Lists d THc -> forall p q, PS p q -> a_take md d n p = a_take md d n q.
Proof.
  intros HL. induction n as [|n IH]; intros p q H; cbn [a_take]; [reflexivity|]. pose proof (next_spell md d p q HL H) as HP.
  destruct (a_next md d p) as [[o p1]| |], (a_next md d q) as [[o' q1]| |]; cbn in HP; try contradiction; cbn [bind]; try reflexivity.
  destruct HP as [<- HP]. destruct o; auto. now rewrite (IH _ _ HP).
Qed.

Lemma spelled md d n ms ms' xs ys : Lists d THc -> Meaning ms xs -> Meaning ms' ys -> Forall2 SpelledOut xs ys ->
  pages_take md d n (pages_new d ms) = pages_take md d n (pages_new d ms').
Proof.
  intros HL (ts & HT & HD) (ts' & HT' & HD') HS.
  rewrite (take_start md d _ ms _ (Reads_new _ _ HT)), (take_start md d _ ms' _ (Reads_new _ _ HT')).
  apply denotes_vals in HD, HD'. rewrite HD, HD'. clear HT HT' HD HD'. apply take_spell; auto. unfold PS, a_start. cbn [ap_rs ap_state ap_rest]. splits; auto.
  induction HS as [|x y xs ys H _ IH]; cbn [map]; constructor; auto. exists x, y. auto.
Qed.
