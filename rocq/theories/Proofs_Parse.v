(** The tag parser computes exactly [Spec_Multi.TagDenotes]. *)

From Coq Require Import String.
From Verif Require Import Base Str Multi Spec_Multi Proofs_Str Proofs_Split.

(** ** Fields *)

Lemma splitn_join n s : join [44] (splitn (S n) is_comma s) = s.
Proof.
  revert s. induction n as [|n IH]; intros s; [reflexivity|].
  rewrite splitn_S. destruct (break_at is_comma s) as [[a b]|] eqn:E; [|reflexivity].
  apply break_at_Some in E as (c & -> & Hc & _). apply Z.eqb_eq in Hc. subst c.
  specialize (IH b). destruct (splitn (S n) is_comma b) eqn:E.
  - destruct n; cbn in E; [discriminate|]. destruct (break_at is_comma b) as [[? ?]|]; discriminate.
  - change (a ++ [44] ++ join [44] (s :: l) = a ++ 44 :: b). now rewrite IH.
Qed.

Lemma splitn_length n p s : (List.length (splitn n p s) <= n)%nat.
Proof.
  revert s. induction n as [|n IH]; intros s; [auto|]. destruct n; [auto|].
  rewrite splitn_S. destruct (break_at p s) as [[a b]|]; cbn; [|lia].
  specialize (IH b). cbn in IH. lia.
Qed.

Lemma break_at_length p s a b : break_at p s = Some (a, b) -> (List.length b < List.length s)%nat.
Proof.
  intros H. apply break_at_Some in H as (c & -> & _). rewrite app_length. cbn. lia.
Qed.

Lemma splitn_fuel p n m s :
  (List.length s < n)%nat -> (List.length s < m)%nat -> splitn n p s = splitn m p s.
Proof.
  revert m s. induction n as [|n IH]; intros m s Hn Hm; [lia|].
  destruct m as [|m]; [lia|].
  assert (Hcase : forall k, (List.length s < S k)%nat ->
    splitn (S k) p s = match break_at p s with Some (a, b) => a :: splitn k p b | None => [s] end).
  { intros k Hk. destruct k; [|now rewrite splitn_S].
    destruct s; [reflexivity|cbn in Hk; lia]. }
  rewrite !Hcase by auto. destruct (break_at p s) as [[a b]|] eqn:E; [|auto].
  apply break_at_length in E. f_equal. apply IH; lia.
Qed.

Lemma split_on_case p s :
  split_on p s = match break_at p s with Some (a, b) => a :: split_on p b | None => [s] end.
Proof.
  unfold split_on. destruct s as [|c s]; [reflexivity|]. cbn [List.length]. rewrite splitn_S.
  destruct (break_at p (c :: s)) as [[a b]|] eqn:E; [|auto].
  apply break_at_length in E. cbn in E. f_equal. apply splitn_fuel; lia.
Qed.

Lemma split_on_free p s : free p s -> split_on p s = [s].
Proof. intros. rewrite split_on_case. now rewrite break_at_free. Qed.

Lemma split_on_app p a c b : free p a -> p c = true -> split_on p (a ++ c :: b) = a :: split_on p b.
Proof. intros. rewrite split_on_case. now rewrite break_at_app. Qed.

Lemma split_on_join s : join [44] (split_on is_comma s) = s.
Proof. apply splitn_join. Qed.

Lemma comma_44 : is_comma 44 = true.
Proof. reflexivity. Qed.

#[global] Hint Resolve comma_44 : multi.
#[global] Hint Resolve Num10_no_comma Num16_no_comma Num10_no_o Num10_no_t : multi.

(** ** Colours and rectangles *)

Lemma parse_color_fields v c :
  parse_color v = Some c <->
  (exists s n, v = [s] /\ Num8 s n /\ c = Legacy n)
  \/ (exists sr sg sb r g b, v = [sr; sg; sb] /\ Num8 sr r /\ Num8 sg g /\ Num8 sb b /\ c = Rgb r g b).
Proof.
  split.
  - unfold parse_color. destruct v as [|s [|s2 [|s3 [|s4 v]]]]; cbn; try discriminate.
    + destruct (parse_u8 s) eqn:E; [|discriminate]. intros H. inv H. apply parse_u8_iff in E.
      left. eauto.
    + destruct (parse_u8 s), (parse_u8 s2); discriminate.
    + destruct (parse_u8 s) eqn:E; [|discriminate].
      destruct (parse_u8 s2) eqn:E2; [|discriminate].
      destruct (parse_u8 s3) eqn:E3; [|discriminate].
      intros H. inv H. apply parse_u8_iff in E, E2, E3. right. do 6 eexists. eauto.
    + destruct (parse_u8 s), (parse_u8 s2), (parse_u8 s3); discriminate.
  - intros [(s & n & -> & H & ->)|(sr & sg & sb & r & g & b & -> & H1 & H2 & H3 & ->)].
    + apply parse_u8_iff in H. unfold parse_color. cbn. now rewrite H.
    + apply parse_u8_iff in H1, H2, H3. unfold parse_color. cbn. now rewrite H1, H2, H3.
Qed.

Lemma parse_color_iff s c : parse_color (split_on is_comma s) = Some c <-> ColorText s c.
Proof.
  rewrite parse_color_fields. split.
  - intros [(t & n & E & H & ->)|(sr & sg & sb & r & g & b & E & H1 & H2 & H3 & ->)];
      pose proof (split_on_join s) as J; rewrite E in J; cbn in J; subst s; now constructor.
  - intros H. inv H.
    + left. exists s, n. rewrite split_on_free; eauto with multi.
    + right. exists sr, sg, sb, r, g, b. cbn [app]. rewrite !split_on_app by eauto with multi.
      rewrite split_on_free by eauto with multi. auto.
Qed.

Lemma parse_rectangle_fields v r vs :
  parse_rectangle v = (Some r, vs) <->
  exists sx sy sw sh x y w h, v = sx :: sy :: sw :: sh :: vs
    /\ Num16 sx x /\ Num16 sy y /\ Num16 sw w /\ Num16 sh h /\ 1 <= x /\ 1 <= y
    /\ r = mkRect x y w h.
Proof.
  split.
  - unfold parse_rectangle. destruct v as [|sx [|sy [|sw [|sh v]]]]; cbn; try discriminate.
    intros H. injection H as H <-.
    destruct (parse_u16 sx) eqn:E1; [|discriminate].
    destruct (parse_u16 sy) eqn:E2; [|discriminate].
    destruct (parse_u16 sw) eqn:E3; [|discriminate].
    destruct (parse_u16 sh) eqn:E4; [|discriminate].
    destruct ((0 <? z) && (0 <? z0)) eqn:E5; [|discriminate]. injection H as <-.
    apply parse_u16_iff in E1, E2, E3, E4. apply andb_true_iff in E5 as [H5 H6].
    apply Z.ltb_lt in H5, H6. exists sx, sy, sw, sh, z, z0, z1, z2.
    splits; auto; lia.
  - intros (sx & sy & sw & sh & x & y & w & h & -> & H1 & H2 & H3 & H4 & Hx & Hy & ->).
    apply parse_u16_iff in H1, H2, H3, H4. unfold parse_rectangle. cbn.
    rewrite H1, H2, H3, H4. destruct (Z.ltb_spec 0 x); [|lia]. destruct (Z.ltb_spec 0 y); [|lia].
    reflexivity.
Qed.

(** [fst] only. *)
Lemma parse_rectangle_some v r :
  fst (parse_rectangle v) = Some r -> exists vs, parse_rectangle v = (Some r, vs).
Proof. destruct (parse_rectangle v) as [o vs]. cbn. intros ->. eauto. Qed.

(** ** Codes *)

Lemma to_lower_CodeCh l c : 97 <= l <= 122 -> to_lower c = l <-> CodeCh l c.
Proof.
  intros Hl. unfold to_lower. split.
  - destruct (Z.leb_spec 65 c), (Z.leb_spec c 90); cbn; intros; try (subst; constructor; fail).
    subst. replace c with (c + 32 - 32) at 2 by lia. now constructor.
  - intros H. inv H.
    + destruct (Z.leb_spec 65 c), (Z.leb_spec c 90); cbn; lia.
    + destruct (Z.leb_spec 65 (l - 32)), (Z.leb_spec (l - 32) 90); cbn; lia.
Qed.

Lemma to_lower_slash c : to_lower c = 47 <-> c = 47.
Proof.
  unfold to_lower. destruct (Z.leb_spec 65 c), (Z.leb_spec c 90); cbn; lia.
Qed.

Lemma CodeCh_ascii l c : l < 128 -> CodeCh l c -> c < 128.
Proof. intros Hl H. inv H; lia. Qed.

Lemma CodeCh_cases l c : CodeCh l c -> c = l \/ (97 <= l <= 122 /\ c = l - 32).
Proof. intros H. inv H; auto. Qed.

Lemma Code_1 l a k : lit l = [a] -> Code l k -> exists c, k = [c] /\ CodeCh a c.
Proof. unfold Code. intros -> H. inv H. inv H4. eauto. Qed.

Lemma Code_2 l a b k : lit l = [a; b] -> Code l k ->
  exists c d, k = [c; d] /\ CodeCh a c /\ CodeCh b d.
Proof. unfold Code. intros -> H. inv H. inv H4. inv H5. eauto. Qed.

Lemma Code_3 l a b e k : lit l = [a; b; e] -> Code l k ->
  exists c d f, k = [c; d; f] /\ CodeCh a c /\ CodeCh b d /\ CodeCh e f.
Proof. unfold Code. intros -> H. inv H. inv H4. inv H5. inv H6. do 3 eexists. eauto. Qed.

(** [PF f l]: parser [f] of code [l] reads its arguments as specified. *)
Definition PF (f : str -> M (option Value)) (l : string) : Prop :=
  forall (k r : str), Code l k ->
    (f (k ++ r) = Panic /\ SplitsArg l r)
    \/ (~ SplitsArg l r /\ exists o, f (k ++ r) = Val o /\ forall v, o = Some v <-> ArgDenotes l r v).

Ltac code_start :=
  let k := fresh "k" in let r := fresh "r" in let H := fresh "Hcode" in
  intros k r H;
  first [ eapply Code_1 in H; [|reflexivity]; destruct H as (c0 & -> & Hc0);
          vm_compute in Hc0;
          assert (Ha0 : c0 < 128) by (eapply CodeCh_ascii; [|eassumption]; lia)
        | eapply Code_2 in H; [|reflexivity]; destruct H as (c0 & c1 & -> & Hc0 & Hc1);
          vm_compute in Hc0; vm_compute in Hc1;
          assert (Ha0 : c0 < 128) by (eapply CodeCh_ascii; [|eassumption]; lia);
          assert (Ha1 : c1 < 128) by (eapply CodeCh_ascii; [|eassumption]; lia)
        | eapply Code_3 in H; [|reflexivity]; destruct H as (c0 & c1 & c2 & -> & Hc0 & Hc1 & Hc2);
          vm_compute in Hc0; vm_compute in Hc1; vm_compute in Hc2;
          assert (Ha0 : c0 < 128) by (eapply CodeCh_ascii; [|eassumption]; lia);
          assert (Ha1 : c1 < 128) by (eapply CodeCh_ascii; [|eassumption]; lia);
          assert (Ha2 : c2 < 128) by (eapply CodeCh_ascii; [|eassumption]; lia) ].

Ltac no_split := right; split; [let H := fresh in intros H; inversion H|].

Lemma len2_gt c0 c1 r :
  c0 < 128 -> c1 < 128 -> (2 <? len (c0 :: c1 :: r)) = negb (is_empty r).
Proof.
  intros. cbn [len]. rewrite !utf8_len_ascii by auto. pose proof (len_nonneg r).
  destruct r; cbn [is_empty negb]; [reflexivity|].
  assert (0 < len (z :: r)) by (apply len_pos_nonempty; congruence).
  destruct (Z.ltb_spec 2 (1 + (1 + len (z :: r)))); auto. lia.
Qed.

Lemma len2_eq c0 c1 r :
  c0 < 128 -> c1 < 128 -> (len (c0 :: c1 :: r) =? 2) = is_empty r.
Proof.
  intros. cbn [len]. rewrite !utf8_len_ascii by auto.
  destruct r; cbn [is_empty]; [reflexivity|].
  assert (0 < len (z :: r)) by (apply len_pos_nonempty; congruence).
  destruct (Z.eqb_spec (1 + (1 + len (z :: r))) 2); auto. lia.
Qed.

Lemma len3_eq c0 c1 c2 r :
  c0 < 128 -> c1 < 128 -> c2 < 128 -> (len (c0 :: c1 :: c2 :: r) =? 3) = is_empty r.
Proof.
  intros. cbn [len]. rewrite !utf8_len_ascii by auto.
  destruct r; cbn [is_empty]; [reflexivity|].
  assert (0 < len (z :: r)) by (apply len_pos_nonempty; congruence).
  destruct (Z.eqb_spec (1 + (1 + (1 + len (z :: r)))) 3); auto. lia.
Qed.

Ltac argument := cbn [app]; rewrite ?len2_gt, ?slice_from_2, ?slice_from_1, ?slice_from_3 by auto;
  cbn [bind].

Lemma Num8_not_nil n : ~ Num8 [] n.
Proof. intros H. apply Num_nonempty in H. congruence. Qed.

Lemma pf_cb : PF parse_color_background "cb".
Proof.
  code_start. no_split. unfold parse_color_background. argument.
  destruct r as [|x r]; cbn [is_empty negb].
  - eexists. split; [reflexivity|]. intros v. split.
    + intros H. inv H. constructor.
    + intros H. inv H; auto. now apply Num8_not_nil in H0.
  - eexists. split; [reflexivity|]. intros v. split.
    + destruct (parse_u8 (x :: r)) eqn:E; [|discriminate]. intros H. inv H.
      apply parse_u8_iff in E. now constructor.
    + intros H. inv H. apply parse_u8_iff in H0. now rewrite H0.
Qed.

Lemma ColorText_nonempty s c : ColorText s c -> s <> [].
Proof.
  intros H. inv H.
  - now apply Num_nonempty in H0.
  - apply Num_nonempty in H0. destruct sr; [congruence|discriminate].
Qed.

Lemma pf_pb : PF parse_page_background "pb".
Proof.
  code_start. no_split. unfold parse_page_background. argument.
  destruct r as [|x r]; cbn [is_empty negb].
  - eexists. split; [reflexivity|]. intros v. split.
    + intros H. inv H. constructor.
    + intros H. inv H; auto. apply ColorText_nonempty in H0. congruence.
  - eexists. split; [reflexivity|]. intros v. split.
    + destruct (parse_color _) eqn:E; [|discriminate]. intros H. inv H.
      apply parse_color_iff in E. now constructor.
    + intros H. inv H. apply parse_color_iff in H0. now rewrite H0.
Qed.

Lemma pf_cf : PF parse_color_foreground "cf".
Proof.
  code_start. no_split. unfold parse_color_foreground. argument.
  destruct r as [|x r]; cbn [is_empty negb].
  - eexists. split; [reflexivity|]. intros v. split.
    + intros H. inv H. constructor.
    + intros H. inv H; auto. apply ColorText_nonempty in H0. congruence.
  - eexists. split; [reflexivity|]. intros v. split.
    + destruct (parse_color _) eqn:E; [|discriminate]. intros H. inv H.
      apply parse_color_iff in E. now constructor.
    + intros H. inv H. apply parse_color_iff in H0. now rewrite H0.
Qed.

Lemma RectText_fields s rc rest :
  RectText s rc ->
  forall n, exists vs, parse_rectangle (splitn (S (S (S (S (S n))))) is_comma (s ++ 44 :: rest))
    = (Some rc, vs) /\ vs = splitn (S n) is_comma rest.
Proof.
  intros H n. inv H. eexists. split; [|reflexivity].
  apply parse_rectangle_fields. exists sx, sy, sw, sh, x, y, w, h.
  repeat rewrite <- app_assoc. cbn [app].
  rewrite !splitn_app by eauto with multi.
  splits; auto.
Qed.

Lemma pf_cr : PF parse_color_rectangle "cr".
Proof.
  code_start. no_split. unfold parse_color_rectangle. argument.
  destruct (parse_rectangle (splitn 7 is_comma r)) as [o vs] eqn:E.
  eexists. split; [reflexivity|]. intros v. split.
  - destruct o as [rc|]; [|discriminate]. destruct (parse_color vs) as [c|] eqn:Ec; [|discriminate].
    intros H. inv H.
    apply parse_rectangle_fields in E as (sx & sy & sw & sh & x & y & w & h & E & H1 & H2 & H3 & H4 & Hx & Hy & ->).
    pose proof (splitn_join 6 r) as J. rewrite E in J.
    apply parse_color_fields in Ec as [(s & n & -> & H & ->)|(sr & sg & sb & rr & g & b & -> & H6 & H7 & H8 & ->)];
      cbn in J; subst r.
    + replace (sx ++ 44 :: sy ++ 44 :: sw ++ 44 :: sh ++ 44 :: s)
        with ((sx ++ [44] ++ sy ++ [44] ++ sw ++ [44] ++ sh) ++ [44] ++ s)
        by (repeat rewrite <- app_assoc; reflexivity).
      constructor; now constructor.
    + replace (sx ++ 44 :: sy ++ 44 :: sw ++ 44 :: sh ++ 44 :: sr ++ 44 :: sg ++ 44 :: sb)
        with ((sx ++ [44] ++ sy ++ [44] ++ sw ++ [44] ++ sh) ++ [44] ++ (sr ++ [44] ++ sg ++ [44] ++ sb))
        by (repeat rewrite <- app_assoc; reflexivity).
      constructor; now constructor.
  - intros H. inv H. cbn [app] in E.
    match goal with HR : RectText _ _, HC : ColorText _ _ |- _ =>
      destruct (RectText_fields _ _ sc HR 2) as (vs' & E' & Hvs); rewrite E' in E; inv E;
      inv HC end.
    + rewrite splitn_free by eauto with multi.
      assert (P : parse_color [sc] = Some (Legacy n)) by (apply parse_color_fields; left; eauto).
      now rewrite P.
    + cbn [app]. rewrite !splitn_app by eauto with multi. rewrite splitn_1.
      match goal with |- context [parse_color ?l] =>
        assert (P : parse_color l = Some (Rgb r g b))
          by (apply parse_color_fields; right; do 6 eexists; eauto) end.
      now rewrite P.
Qed.

Lemma RectText_splitn4 s rc : RectText s rc ->
  exists vs, parse_rectangle (splitn 4 is_comma s) = (Some rc, vs).
Proof.
  intros H. inv H. exists []. apply parse_rectangle_fields. exists sx, sy, sw, sh, x, y, w, h.
  repeat rewrite <- app_assoc. cbn [app].
  rewrite !splitn_app by eauto with multi. rewrite splitn_1.
  splits; auto.
Qed.

Lemma pf_tr : PF parse_text_rectangle "tr".
Proof.
  code_start. no_split. unfold parse_text_rectangle. argument.
  eexists. split; [reflexivity|]. intros v. split.
  - destruct (fst (parse_rectangle (splitn 4 is_comma r))) as [rc|] eqn:E; [|discriminate].
    intros H. inv H. apply parse_rectangle_some in E as (vs & E).
    apply parse_rectangle_fields in E as (sx & sy & sw & sh & x & y & w & h & E & H1 & H2 & H3 & H4 & Hx & Hy & ->).
    pose proof (splitn_join 3 r) as J. pose proof (splitn_length 4 is_comma r) as L.
    rewrite E in J, L. cbn in L. destruct vs; [|cbn in L; lia]. cbn in J. subst r.
    constructor. now constructor.
  - intros H. inv H. destruct (RectText_splitn4 _ _ H0) as (vs & ->). reflexivity.
Qed.

Lemma pf_sc : PF parse_spacing_character "sc".
Proof.
  code_start. no_split. unfold parse_spacing_character. argument.
  eexists. split; [reflexivity|]. intros v. cbn. split.
  - destruct (parse_u8 r) as [n|] eqn:E; [|discriminate].
    destruct (Z.ltb_spec n 100); [|discriminate]. intros H'. inv H'.
    apply parse_u8_iff in E. constructor; auto. lia.
  - intros H. inv H. apply parse_u8_iff in H0. rewrite H0.
    destruct (Z.ltb_spec n 100); [auto|lia].
Qed.

Lemma pf_hc : PF parse_hexadecimal_character "hc".
Proof.
  code_start. no_split. unfold parse_hexadecimal_character. argument.
  eexists. split; [reflexivity|]. intros v. split.
  - destruct (parse_hex16 r) as [n|] eqn:E; [|discriminate]. intros H'. inv H'.
    apply parse_hex16_iff in E. now constructor.
  - intros H. inv H. apply parse_hex16_iff in H0. now rewrite H0.
Qed.

Lemma jl_new_iff r j : jl_new r = Some j <-> exists c, r = [c] /\ jl_of c = Some j.
Proof.
  split.
  - unfold jl_new. intros H.
    repeat match type of H with (if str_eqb ?a ?b then _ else _) = _ =>
      destruct (str_eqb a b) eqn:?E end; try discriminate; inv H;
    match goal with E : str_eqb _ _ = true |- _ => apply str_eqb_iff in E; subst end;
    eexists; split; reflexivity.
  - intros (c & -> & H). unfold jl_of in H.
    destruct c as [|c|c]; try discriminate.
    do 6 (destruct c as [c|c|]; try discriminate); inv H; reflexivity.
Qed.

Lemma jp_new_iff r j : jp_new r = Some j <-> exists c, r = [c] /\ jp_of c = Some j.
Proof.
  split.
  - unfold jp_new. intros H.
    repeat match type of H with (if str_eqb ?a ?b then _ else _) = _ =>
      destruct (str_eqb a b) eqn:?E end; try discriminate; inv H;
    match goal with E : str_eqb _ _ = true |- _ => apply str_eqb_iff in E; subst end;
    eexists; split; reflexivity.
  - intros (c & -> & H). unfold jp_of in H.
    destruct c as [|c|c]; try discriminate.
    do 6 (destruct c as [c|c|]; try discriminate); inv H; reflexivity.
Qed.

Lemma pf_jl : PF parse_justification_line "jl".
Proof.
  code_start. no_split. unfold parse_justification_line. argument.
  destruct r as [|x r]; cbn [is_empty negb].
  - eexists. split; [reflexivity|]. intros v. split.
    + intros H. inv H. constructor.
    + intros H. inv H; auto.
  - eexists. split; [reflexivity|]. intros v. split.
    + destruct (jl_new (x :: r)) as [j|] eqn:E; [|discriminate]. intros H. inv H.
      apply jl_new_iff in E as (c & -> & E). now constructor.
    + intros H. inv H. assert (E : jl_new [x] = Some j) by (apply jl_new_iff; eauto). now rewrite E.
Qed.

Lemma pf_jp : PF parse_justification_page "jp".
Proof.
  code_start. no_split. unfold parse_justification_page. argument.
  destruct r as [|x r]; cbn [is_empty negb].
  - eexists. split; [reflexivity|]. intros v. split.
    + intros H. inv H. constructor.
    + intros H. inv H; auto.
  - eexists. split; [reflexivity|]. intros v. split.
    + destruct (jp_new (x :: r)) as [j|] eqn:E; [|discriminate]. intros H. inv H.
      apply jp_new_iff in E as (c & -> & E). now constructor.
    + intros H. inv H. assert (E : jp_new [x] = Some j) by (apply jp_new_iff; eauto). now rewrite E.
Qed.

Lemma pf_np : PF parse_new_page "np".
Proof.
  code_start. no_split. unfold parse_new_page. cbn [app]. rewrite len2_eq by auto.
  eexists. split; [reflexivity|]. intros v. destruct r; cbn [is_empty]; split.
  - intros H. inv H. constructor.
  - intros H. now inv H.
  - discriminate.
  - intros H. inv H.
Qed.

Lemma pf_scend : PF parse_spacing_character_end "/sc".
Proof.
  code_start. no_split. unfold parse_spacing_character_end. cbn [app]. rewrite len3_eq by auto.
  eexists. split; [reflexivity|]. intros v. destruct r; cbn [is_empty]; split.
  - intros H. inv H. constructor.
  - intros H. now inv H.
  - discriminate.
  - intros H. inv H.
Qed.

Lemma pf_flend : PF parse_flash_end "/fl".
Proof.
  code_start. no_split. unfold parse_flash_end. cbn [app]. rewrite len3_eq by auto.
  eexists. split; [reflexivity|]. intros v. destruct r; cbn [is_empty]; split.
  - intros H. inv H. constructor.
  - intros H. now inv H.
  - discriminate.
  - intros H. inv H.
Qed.

(** A one-character numeral. *)
Lemma Num8_single c n : Num8 [c] n <-> DigitVal 10 c n.
Proof.
  unfold Num8, Num. split.
  - intros [[H|(s' & H & H')] _].
    + inversion H as [c' d' Hd Hc|s m c' d' Hs Hd Hc]; subst; auto.
      apply Digits_nonempty in Hs. destruct s as [|? [|? ?]]; try discriminate. congruence.
    + inv H. now apply Digits_nonempty in H'.
  - intros H. split; [left; now constructor|]. apply DigitVal_nonneg in H. lia.
Qed.

Lemma pf_nl : PF parse_new_line "nl".
Proof.
  code_start. no_split. unfold parse_new_line. cbn [app]. rewrite len2_eq by auto.
  destruct r as [|x r]; cbn [is_empty].
  - eexists. split; [reflexivity|]. intros v. split.
    + intros H. inv H. constructor.
    + intros H. now inv H.
  - cbn [len]. rewrite !utf8_len_ascii by auto.
    destruct (Z.eqb_spec (1 + (1 + (utf8_len x + len r))) 3) as [E|E].
    + pose proof (utf8_len_pos x). pose proof (len_nonneg r).
      assert (r = []) as -> by (apply len_zero; lia).
      rewrite slice_from_2 by auto. cbn [bind]. eexists. split; [reflexivity|]. intros v. split.
      * destruct (parse_u8 [x]) as [n|] eqn:P; [|discriminate]. intros H'. inv H'.
        apply parse_u8_iff in P. apply Num8_single in P. now constructor.
      * intros H'. inv H'.
        match goal with HD : DigitVal _ _ _ |- _ => apply Num8_single, parse_u8_iff in HD; now rewrite HD end.
    + eexists. split; [reflexivity|]. intros v. split; [discriminate|].
      intros H'. inv H'. exfalso. apply E. cbn [len].
      match goal with HD : DigitVal _ _ _ |- _ => unfold DigitVal in HD end.
      rewrite utf8_len_ascii by lia. reflexivity.
Qed.

(** Optional numbers and separators. *)
Lemma parse_optional_iff s vs o :
  fst (parse_optional parse_u8 (s :: vs)) = Some o <-> OptText Num8 s o.
Proof.
  unfold parse_optional. cbn. destruct s as [|c s]; cbn [is_empty negb].
  - split; intros H; inv H; try constructor; auto. now apply Num8_not_nil in H0.
  - destruct (parse_u8 (c :: s)) eqn:E.
    + split; intros H; inv H; [constructor; now apply parse_u8_iff|].
      apply parse_u8_iff in H0. congruence.
    + split; [discriminate|]. intros H. inv H. apply parse_u8_iff in H0. congruence.
Qed.

Lemma parse_optional_99_iff s vs o :
  fst (parse_optional_99 (s :: vs)) = Some o <-> OptText le99 s o.
Proof.
  unfold parse_optional_99. cbn. destruct s as [|c s]; cbn [is_empty negb].
  - split; intros H; inv H; try constructor; auto. destruct H0 as [H0 _]. now apply Num8_not_nil in H0.
  - destruct (parse_u8 (c :: s)) eqn:E.
    + destruct (Z.leb_spec z 99).
      * split; intros H'; inv H'; [constructor; split; [now apply parse_u8_iff|auto]|].
        destruct H0 as [H0 _]. apply parse_u8_iff in H0. congruence.
      * split; [discriminate|]. intros H'. inv H'. destruct H0 as [H0 H1]. 
        apply parse_u8_iff in H0. rewrite H0 in E. inv E. lia.
    + split; [discriminate|]. intros H. inv H. destruct H0 as [H0 _].
      apply parse_u8_iff in H0. congruence.
Qed.

Lemma sep_o_iff c : is_o c = true <-> sep_o c.
Proof. unfold is_o, sep_o. rewrite orb_true_iff, !Z.eqb_eq. tauto. Qed.
Lemma sep_t_iff c : is_t c = true <-> sep_t c.
Proof. unfold is_t, sep_t. rewrite orb_true_iff, !Z.eqb_eq. tauto. Qed.

(** Generic: two optional numbers around a separator. *)
Lemma sep_opt_iff (p : Z -> bool) (sep : Z -> Prop) (P : str -> Z -> Prop)
    (f : list str -> option (option Z) * list str) r a b :
  (forall c, p c = true <-> sep c) ->
  (forall s n, P s n -> free p s) ->
  (forall s vs o, fst (f (s :: vs)) = Some o <-> OptText P s o) ->
  (forall s vs, snd (f (s :: vs)) = vs) ->
  fst (f []) = Some None ->
  (fst (f (splitn 2 p r)) = Some a /\ fst (f (snd (f (splitn 2 p r)))) = Some b)
  <-> SepOpt sep P r a b.
Proof.
  intros Hsep Hfree Hf Hs Hnil. cbn [splitn]. destruct (break_at p r) as [[x y]|] eqn:E.
  - rewrite Hs, !Hf. apply break_at_Some in E as (c & -> & Hc & Hx). split.
    + intros [H1 H2]. apply Hsep in Hc. now constructor.
    + intros H. inversion H as [s a' Ha Es|s c' s' a' b' Ha Hc' Hb Es]; subst.
      * (* no separator in an optional number, but there is one *)
        exfalso. assert (Hfr : free p (x ++ c :: y)).
        { inv Ha; [destruct x; discriminate|]. now apply Hfree in H0. }
        apply Forall_app in Hfr as [_ Hfr]. inv Hfr. congruence.
      * assert (Hfr : free p s) by (inv Ha; [constructor|eauto]).
        pose proof (break_at_app p s c' s' Hfr (proj2 (Hsep c') Hc')) as B1.
        pose proof (break_at_app p x c y Hx Hc) as B2. cbn in Es. rewrite Es in B1. rewrite B1 in B2.
        inv B2. auto.
  - rewrite Hs, Hf, Hnil. split.
    + intros [H1 H2]. inv H2. now constructor.
    + intros H. inversion H as [s a' Ha Es|s c' s' a' b' Ha Hc' Hb Es]; subst; auto.
      exfalso. apply break_at_None in E. apply Forall_app in E as [_ E]. inv E.
      apply Hsep in Hc'. congruence.
Qed.

Lemma le99_free_o s n : le99 s n -> free is_o s.
Proof. intros [H _]. eauto with multi. Qed.
Lemma le99_free_t s n : le99 s n -> free is_t s.
Proof. intros [H _]. eauto with multi. Qed.
Lemma Num8_free_o s n : Num8 s n -> free is_o s.
Proof. eauto with multi. Qed.

Lemma parse_flash_on_iff r v :
  parse_flash_on r = Some v <-> exists a b, v = VFlash OnOff a b /\ SepOpt sep_o le99 r a b.
Proof.
  assert (S : forall a b, _) by (intros a b;
    exact (sep_opt_iff is_o sep_o le99 parse_optional_99 r a b sep_o_iff le99_free_o
      parse_optional_99_iff (fun s vs => eq_refl) eq_refl)).
  unfold parse_flash_on.
  destruct (parse_optional_99 (splitn 2 is_o r)) as [t vs] eqn:E. cbn [fst snd] in S.
  destruct (parse_optional_99 vs) as [o vs'] eqn:E'. cbn [fst snd] in S. split.
  - destruct t as [t|]; [|discriminate]. destruct o as [o|]; [|discriminate].
    intros H. inv H. exists t, o. split; auto. now apply S.
  - intros (a & b & -> & H). apply S in H as [-> ->]. reflexivity.
Qed.

Lemma parse_flash_off_iff r v :
  parse_flash_off r = Some v <-> exists a b, v = VFlash OffOn a b /\ SepOpt sep_t le99 r a b.
Proof.
  assert (S : forall a b, _) by (intros a b;
    exact (sep_opt_iff is_t sep_t le99 parse_optional_99 r a b sep_t_iff le99_free_t
      parse_optional_99_iff (fun s vs => eq_refl) eq_refl)).
  unfold parse_flash_off.
  destruct (parse_optional_99 (splitn 2 is_t r)) as [t vs] eqn:E. cbn [fst snd] in S.
  destruct (parse_optional_99 vs) as [o vs'] eqn:E'. cbn [fst snd] in S. split.
  - destruct t as [t|]; [|discriminate]. destruct o as [o|]; [|discriminate].
    intros H. inv H. exists t, o. split; auto. now apply S.
  - intros (a & b & -> & H). apply S in H as [-> ->]. reflexivity.
Qed.

Lemma pf_pt : PF parse_page_time "pt".
Proof.
  code_start. no_split. unfold parse_page_time. argument.
  assert (S : forall a b, _) by (intros a b;
    exact (sep_opt_iff is_o sep_o Num8 (parse_optional parse_u8) r a b sep_o_iff Num8_free_o
      parse_optional_iff (fun s vs => eq_refl) eq_refl)).
  destruct (parse_optional parse_u8 (splitn 2 is_o r)) as [t vs] eqn:E. cbn [fst snd] in S.
  destruct (parse_optional parse_u8 vs) as [o vs'] eqn:E'. cbn [fst snd] in S.
  eexists. split; [reflexivity|]. intros v. split.
  - destruct t as [t|]; [|discriminate]. destruct o as [o|]; [|discriminate].
    intros H. inv H. constructor. now apply S.
  - intros H. inv H. apply S in H0 as [-> ->]. reflexivity.
Qed.

Lemma str_eqb_single c l : str_eqb [c] [l] = (c =? l).
Proof. cbn. now rewrite andb_true_r. Qed.

Lemma CodeCh_eqb l c : 97 <= l <= 122 -> (c =? l) || (c =? l - 32) = true <-> CodeCh l c.
Proof.
  intros Hl. rewrite orb_true_iff, !Z.eqb_eq. split.
  - intros [->| ->]; now constructor.
  - intros H. inv H; auto.
Qed.

Lemma head_is (c : Z) (x y : string) l :
  97 <= l <= 122 -> lit x = [l] -> lit y = [l - 32] ->
  str_eqb [c] (lit x) || str_eqb [c] (lit y) = true <-> CodeCh l c.
Proof. intros Hl -> ->. rewrite !str_eqb_single. now apply CodeCh_eqb. Qed.

Lemma pf_fl : PF parse_flash_time "fl".
Proof.
  code_start. unfold parse_flash_time. argument.
  destruct r as [|x r]; cbn [is_empty negb].
  - no_split. eexists. split; [reflexivity|]. intros v. split.
    + intros H. inv H. constructor.
    + intros H. now inv H.
  - destruct (Z.lt_ge_cases x 128) as [Hx|Hx].
    + rewrite slice_to_1, slice_from_1 by auto. cbn [bind].
      right. split. { intros H. inv H. lia. }
      pose proof (head_is x "t" "T" 116 ltac:(lia) eq_refl eq_refl) as Ht.
      pose proof (head_is x "o" "O" 111 ltac:(lia) eq_refl eq_refl) as Ho.
      assert (Hto : CodeCh 116 x -> CodeCh 111 x -> False) by (intros A B; inv A; inv B; lia).
      destruct (str_eqb [x] (lit "t") || str_eqb [x] (lit "T")).
      * eexists. split; [reflexivity|]. intros v. rewrite parse_flash_on_iff. split.
        -- intros (a & b & -> & H). constructor; auto. now apply Ht.
        -- intros H. inv H; [eauto|]. exfalso. apply Hto; auto. now apply Ht.
      * destruct (str_eqb [x] (lit "o") || str_eqb [x] (lit "O")).
        -- eexists. split; [reflexivity|]. intros v. rewrite parse_flash_off_iff. split.
           ++ intros (a & b & -> & H). constructor; auto. now apply Ho.
           ++ intros H. inv H; [|eauto].
              match goal with HC : CodeCh 116 _ |- _ => apply Ht in HC; discriminate end.
        -- eexists. split; [reflexivity|]. intros v. split; [discriminate|].
           intros H. inv H; match goal with
             | HC : CodeCh 116 _ |- _ => apply Ht in HC; discriminate
             | HC : CodeCh 111 _ |- _ => apply Ho in HC; discriminate end.
    + rewrite slice_to_1_wide by auto. left. split; auto. now constructor.
Qed.

Lemma parse_nonzero_iff s vs n :
  fst (parse_nonzero parse_u8 (s :: vs)) = Some n <-> Num8 s n /\ 1 <= n.
Proof.
  unfold parse_nonzero. cbn. destruct (parse_u8 s) as [m|] eqn:E.
  - pose proof (proj1 (parse_u8_iff _ _) E) as N. apply Num8_range in N as Hr.
    destruct (Z.eqb_spec m 0); cbn.
    + split; [discriminate|]. intros [H Hn]. apply parse_u8_iff in H. rewrite H in E. inv E. lia.
    + split; intros H.
      * inv H. split; auto. lia.
      * destruct H as [H _]. apply parse_u8_iff in H. congruence.
  - split; [discriminate|]. intros [H _]. apply parse_u8_iff in H. congruence.
Qed.

Lemma parse_version_id_iff s vs o :
  fst (parse_version_id (s :: vs)) = Some o <-> exists h, o = Some h /\ Hex4 s h.
Proof.
  unfold parse_version_id. cbn. destruct (Z.eqb_spec (len s) 4) as [E|E].
  - destruct (parse_hex16 s) as [h|] eqn:P.
    + apply parse_hex16_iff in P. split; intros H.
      * inv H. exists h. split; auto. split; auto.
        rewrite (Num_len 16 65536 s h) in E; [lia|lia|auto].
      * destruct H as (h' & -> & H & _). apply parse_hex16_iff in P, H. congruence.
    + split; [discriminate|]. intros (h & _ & H & _). apply parse_hex16_iff in H. congruence.
  - split; [discriminate|]. intros (h & _ & H & L). exfalso. apply E.
    rewrite (Num_len 16 65536 s h); [lia|lia|auto].
Qed.

(** Splitting in two at a comma. *)
Lemma splitn2_comma r :
  (splitn 2 is_comma r = [r] /\ free is_comma r)
  \/ exists a b, splitn 2 is_comma r = [a; b] /\ r = a ++ [44] ++ b /\ free is_comma a.
Proof.
  cbn [splitn]. destruct (break_at is_comma r) as [[a b]|] eqn:E.
  - right. apply break_at_Some in E as (c & -> & Hc & Ha). apply Z.eqb_eq in Hc. subst. eauto.
  - left. split; auto. now apply break_at_None.
Qed.

Lemma comma_unique a b a' b' :
  free is_comma a -> free is_comma a' -> a ++ [44] ++ b = a' ++ [44] ++ b' -> a = a' /\ b = b'.
Proof.
  intros H H' E. pose proof (break_at_app is_comma a 44 b H eq_refl) as B1.
  pose proof (break_at_app is_comma a' 44 b' H' eq_refl) as B2. cbn in E. rewrite E in B1.
  rewrite B1 in B2. inv B2. auto.
Qed.

Lemma comma_not_free a b : ~ free is_comma (a ++ [44] ++ b).
Proof. intros H. apply Forall_app in H as [_ H]. inv H. discriminate. Qed.

Lemma pf_fo : PF parse_font "fo".
Proof.
  code_start. no_split. unfold parse_font. argument.
  destruct r as [|x r]; cbn [is_empty negb].
  - eexists. split; [reflexivity|]. intros v. split.
    + intros H. inv H. constructor.
    + intros H. inv H; auto.
      * now apply Num8_not_nil in H0.
      * destruct s; discriminate.
  - remember (x :: r : str) as rr eqn:Hrr.
    assert (Hne : rr <> []) by (subst; discriminate). clear Hrr. change str in rr.
    destruct (splitn2_comma rr) as [[-> Hf]|(a & b & -> & -> & Ha)].
    + pose proof (parse_nonzero_iff rr []) as Hn.
      destruct (parse_nonzero parse_u8 [rr]) as [o vs] eqn:E.
      assert (vs = []) as -> by (unfold parse_nonzero in E; cbn in E; now inv E).
      cbn. eexists. split; [reflexivity|]. intros v. split.
      * destruct o as [n|]; [|discriminate]. intros H. inv H.
        destruct (proj1 (Hn n) eq_refl). now constructor.
      * intros H. inv H; [congruence| |].
        -- cbn in Hn. rewrite (proj2 (Hn n)); auto.
        -- exfalso. now apply comma_not_free in Hf.
    + pose proof (parse_nonzero_iff a [b]) as Hn.
      destruct (parse_nonzero parse_u8 [a; b]) as [o vs] eqn:E.
      assert (vs = [b]) as -> by (unfold parse_nonzero in E; cbn in E; now inv E).
      pose proof (parse_version_id_iff b []) as Hv.
      destruct (parse_version_id [b]) as [vid vs'] eqn:E'. cbn [fst] in *.
      eexists. split; [reflexivity|]. intros v. split.
      * destruct o as [n|]; [|discriminate]. destruct vid as [vid|]; [|discriminate].
        intros H. inv H. destruct (proj1 (Hn n) eq_refl).
        destruct (proj1 (Hv vid) eq_refl) as (h & -> & Hh). now constructor.
      * intros H. inversion H; subst.
        -- destruct a; discriminate.
        -- exfalso. eapply comma_not_free. eapply Num10_no_comma. eassumption.
        -- match goal with E1 : _ ++ 44 :: _ = a ++ 44 :: b |- _ =>
             apply comma_unique in E1 as [-> ->]; eauto with multi end.
           erewrite (proj2 (Hn n)) by auto. erewrite (proj2 (Hv (Some h))) by eauto. reflexivity.
Qed.

Lemma parse_int_iff p P s vs n :
  (forall s n, p s = Some n <-> P s n) ->
  fst (parse_int p (s :: vs)) = Some n <-> P s n.
Proof. intros H. unfold parse_int. cbn. apply H. Qed.

Lemma pf_ms : PF parse_manufacturer_specific "ms".
Proof.
  code_start. no_split. unfold parse_manufacturer_specific. argument.
  destruct (splitn2_comma r) as [[-> Hf]|(a & b & -> & -> & Ha)]; cbn.
  - eexists. split; [reflexivity|]. intros v. split.
    + destruct (parse_u32 r) as [n|] eqn:E; [|discriminate]. intros H. inv H.
      apply parse_u32_iff in E. now constructor.
    + intros H. inv H.
      * apply parse_u32_iff in H0. now rewrite H0.
      * exfalso. now apply (comma_not_free s t) in Hf.
  - eexists. split; [reflexivity|]. intros v. split.
    + destruct (parse_u32 a) as [n|] eqn:E; [|discriminate]. intros H. inv H.
      apply parse_u32_iff in E. now apply (Ad_ms2 a).
    + intros H. inversion H; subst.
      * exfalso. eapply (comma_not_free a b). eapply Num10_no_comma. eassumption.
      * match goal with E1 : _ ++ 44 :: _ = a ++ 44 :: b |- _ =>
          apply comma_unique in E1 as [-> ->]; eauto with multi end.
        match goal with HN : Num32 _ _ |- _ => apply parse_u32_iff in HN; now rewrite HN end.
Qed.

Lemma pf_msend : PF parse_manufacturer_specific_end "/ms".
Proof.
  code_start. no_split. unfold parse_manufacturer_specific_end. argument.
  destruct (splitn2_comma r) as [[-> Hf]|(a & b & -> & -> & Ha)]; cbn.
  - eexists. split; [reflexivity|]. intros v. split.
    + destruct (parse_u32 r) as [n|] eqn:E; [|discriminate]. intros H. inv H.
      apply parse_u32_iff in E. now constructor.
    + intros H. inv H.
      * apply parse_u32_iff in H0. now rewrite H0.
      * exfalso. now apply (comma_not_free s t) in Hf.
  - eexists. split; [reflexivity|]. intros v. split.
    + destruct (parse_u32 a) as [n|] eqn:E; [|discriminate]. intros H. inv H.
      apply parse_u32_iff in E. now apply (Ad_msend2 a).
    + intros H. inversion H; subst.
      * exfalso. eapply (comma_not_free a b). eapply Num10_no_comma. eassumption.
      * match goal with E1 : _ ++ 44 :: _ = a ++ 44 :: b |- _ =>
          apply comma_unique in E1 as [-> ->]; eauto with multi end.
        match goal with HN : Num32 _ _ |- _ => apply parse_u32_iff in HN; now rewrite HN end.
Qed.

Lemma OptText_None_nil s : OptText Num8 s None -> s = [].
Proof. intros H. now inv H. Qed.

Lemma pf_f : PF parse_field "f".
Proof.
  code_start. no_split. unfold parse_field. argument.
  destruct (splitn2_comma r) as [[-> Hf]|(a & b & -> & -> & Ha)].
  - cbn. eexists. split; [reflexivity|]. intros v. split.
    + destruct (parse_u8 r) as [n|] eqn:E; [|discriminate].
      destruct (Z.ltb_spec n 14); [|discriminate]. intros H'. inv H'.
      apply parse_u8_iff in E. constructor; auto. lia.
    + intros H. inv H.
      * apply parse_u8_iff in H0. rewrite H0. destruct (Z.ltb_spec n 14); [auto|lia].
      * exfalso. now apply (comma_not_free s s') in Hf.
  - pose proof (parse_optional_iff b []) as Ho. unfold parse_int, next.
    destruct (parse_optional parse_u8 [b]) as [w vs]. cbn [fst] in Ho.
    eexists. split; [reflexivity|]. intros v. split.
    + destruct (parse_u8 a) as [n|] eqn:E; [|discriminate]. destruct w as [w|]; [|discriminate].
      destruct (Z.ltb_spec n 14); [|discriminate]. intros H'. inv H'.
      apply parse_u8_iff in E. apply Ad_f2; auto; [lia|]. now apply Ho.
    + intros H. inversion H; subst.
      * exfalso. eapply (comma_not_free a b). eapply Num10_no_comma. eassumption.
      * match goal with E1 : _ ++ 44 :: _ = a ++ 44 :: b |- _ =>
          apply comma_unique in E1 as [-> ->]; eauto with multi end.
        match goal with HN : Num8 _ _, HO : OptText _ _ _ |- _ =>
          apply parse_u8_iff in HN; rewrite HN; apply Ho in HO; rewrite HO end.
        destruct (Z.ltb_spec n 14); [auto|lia].
Qed.

Lemma parse_xy_iff sx sy x y :
  parse_xy sx sy = Some (x, y) <-> Num16 sx x /\ Num16 sy y /\ 1 <= x /\ 1 <= y.
Proof.
  unfold parse_xy. destruct (parse_u16 sx) as [a|] eqn:E1.
  - destruct (parse_u16 sy) as [b|] eqn:E2.
    + apply parse_u16_iff in E1, E2. destruct (Z.ltb_spec 0 a), (Z.ltb_spec 0 b); cbn; split; intros H';
        try discriminate; try (inv H'; splits; auto; lia);
        destruct H' as (H1 & H2 & H3 & H4); apply parse_u16_iff in E1, E2, H1, H2;
        assert (x = a) by congruence; assert (y = b) by congruence; subst; auto; lia.
    + split; [discriminate|]. intros (_ & H & _). apply parse_u16_iff in H. congruence.
  - split; [discriminate|]. intros (H & _). apply parse_u16_iff in H. congruence.
Qed.

(** It is enough to characterise successful outcomes. *)
Lemma val_iff {A} (m : M (option A)) (P : A -> Prop) :
  (exists o, m = Val o) -> (forall v, m = Val (Some v) <-> P v) ->
  exists o, m = Val o /\ forall v, o = Some v <-> P v.
Proof.
  intros (o & ->) H. exists o. split; auto. intros v. rewrite <- H.
  split; [now intros ->|]. intros E. now inv E.
Qed.

Lemma pf_g : PF parse_graphic "g".
Proof.
  code_start. no_split. unfold parse_graphic. argument.
  pose proof (splitn_join 3 r) as J. pose proof (splitn_length 4 is_comma r) as L.
  apply val_iff; [|intros v; split].
  - destruct (parse_nonzero parse_u8 (splitn 4 is_comma r)) as [n vs].
    destruct (parse_point vs) as [p vs2]. destruct (parse_version_id vs2) as [vid vs3]. eauto.
  - destruct (splitn 4 is_comma r) as [|s0 vs]; [discriminate|].
    pose proof (parse_nonzero_iff s0 vs) as Hn.
    destruct (parse_nonzero parse_u8 (s0 :: vs)) as [o vs'] eqn:E.
    assert (vs' = vs) as -> by (unfold parse_nonzero in E; cbn in E; now inv E). cbn [fst] in Hn. clear E.
    destruct vs as [|sx [|sy [|sv [|? ?]]]]; cbn in L; try lia; cbn in J; subst r.
    + cbn. destruct o as [n|]; [|discriminate]. intros H. inv H.
      destruct (proj1 (Hn n) eq_refl). now constructor.
    + cbn. destruct o; discriminate.
    + cbn. destruct o as [n|]; [|discriminate].
      destruct (parse_xy sx sy) as [[x y]|] eqn:Exy; [|discriminate]. intros H. inv H.
      destruct (proj1 (Hn n) eq_refl). apply parse_xy_iff in Exy as (H1 & H2 & H3 & H4).
      apply (Ad_g2 s0 n sx sy); auto.
    + unfold parse_point, next. pose proof (parse_version_id_iff sv []) as Hv.
      destruct (parse_version_id [sv]) as [vid vs']. cbn [fst] in Hv.
      destruct o as [n|]; [|discriminate].
      destruct (parse_xy sx sy) as [[x y]|] eqn:Exy; [|discriminate].
      destruct vid as [vid|]; [|discriminate]. intros H. inv H.
      destruct (proj1 (Hv vid) eq_refl) as (h & -> & Hh).
      destruct (proj1 (Hn n) eq_refl). apply parse_xy_iff in Exy as (H1 & H2 & H3 & H4).
      apply (Ad_g3 s0 n sx sy); auto.
  - clear J L. intros H. inversion H; subst; cbn [app].
    + rewrite splitn_free by eauto with multi.
      unfold parse_nonzero, next. erewrite (proj2 (parse_u8_iff _ _)) by eassumption.
      destruct (Z.eqb_spec n 0); [lia|]. reflexivity.
    + rewrite !splitn_app by eauto with multi. rewrite splitn_free by eauto with multi.
      unfold parse_nonzero, parse_point, next. erewrite (proj2 (parse_u8_iff _ _)) by eassumption.
      erewrite (proj2 (parse_xy_iff _ _ _ _)) by eauto.
      destruct (Z.eqb_spec n 0); [lia|]. reflexivity.
    + rewrite !splitn_app by eauto with multi. rewrite splitn_1.
      unfold parse_nonzero, parse_point, next. erewrite (proj2 (parse_u8_iff _ _)) by eassumption.
      erewrite (proj2 (parse_xy_iff _ _ _ _)) by eauto.
      destruct (Z.eqb_spec n 0); [lia|].
      assert (P : fst (parse_version_id [s']) = Some (Some h)) by (apply parse_version_id_iff; eauto).
      destruct (parse_version_id [s']) as [vid vs']. cbn [fst] in P. subst vid. reflexivity.
Qed.

(** Moving text. *)
Lemma parse_moving_text_dir_iff c d : parse_moving_text_dir (Some c) = Some d <-> DirCh c d.
Proof.
  unfold parse_moving_text_dir.
  pose proof (CodeCh_eqb 108 c ltac:(lia)) as Hl. pose proof (CodeCh_eqb 114 c ltac:(lia)) as Hr.
  change (108 - 32) with 76 in Hl. change (114 - 32) with 82 in Hr.
  assert (X : CodeCh 108 c -> CodeCh 114 c -> False) by (intros A B; inv A; inv B; lia).
  destruct ((c =? 108) || (c =? 76)).
  - split; intros H.
    + inv H. constructor. now apply Hl.
    + inv H; auto. exfalso. apply X; auto. now apply Hl.
  - destruct ((c =? 114) || (c =? 82)).
    + split; intros H.
      * inv H. constructor. now apply Hr.
      * inv H; auto. apply Hl in H0. discriminate.
    + split; [discriminate|]. intros H. inv H; [apply Hl in H0|apply Hr in H0]; discriminate.
Qed.

Lemma moving_mode s mode :
  (exists c r, s = c :: r /\ 128 <= c /\ parse_moving_text_mode s mode = Panic)
  \/ ((forall c r, s = c :: r -> c < 128) /\
     exists o, parse_moving_text_mode s mode = Val o /\
     forall v, o = Some v <->
       exists d w sp r t, v = VMovingText mode d w sp r t /\ MovingArgs s d w sp r t).
Proof.
  unfold parse_moving_text_mode. destruct s as [|c s]; cbn [is_empty negb hd_error].
  - right. split; [congruence|]. eexists. split; [reflexivity|]. intros v. split; [discriminate|].
    intros (d & w & sp & r & t & _ & H). inv H.
  - destruct (Z.lt_ge_cases c 128) as [Hc|Hc].
    + right. split; [congruence|]. rewrite slice_from_1 by auto. cbn [bind].
      pose proof (splitn_join 3 s) as J. pose proof (splitn_length 4 is_comma s) as L.
      pose proof (parse_moving_text_dir_iff c) as Hd.
      apply val_iff.
      { destruct (parse_int parse_u16 (splitn 4 is_comma s)) as [w vs].
        destruct (parse_int parse_u8 vs) as [sp vs2]. destruct (parse_int parse_u8 vs2) as [r vs3].
        destruct (next vs3) as [t vs4]. eauto. }
      intros v. split.
      * destruct (splitn 4 is_comma s) as [|s0 vs];
          [cbn [parse_int next]; destruct (parse_moving_text_dir (Some c)); discriminate|].
        destruct vs as [|s1 [|s2 [|s3 [|? ?]]]]; cbn in L; try lia; cbn in J; subst s; cbn [parse_int next].
        -- destruct (parse_moving_text_dir (Some c)), (parse_u16 s0); discriminate.
        -- destruct (parse_moving_text_dir (Some c)), (parse_u16 s0), (parse_u8 s1); discriminate.
        -- destruct (parse_moving_text_dir (Some c)), (parse_u16 s0), (parse_u8 s1), (parse_u8 s2); discriminate.
        -- destruct (parse_moving_text_dir (Some c)) as [d|] eqn:Ed; [|discriminate].
           destruct (parse_u16 s0) as [w|] eqn:E0; [|discriminate].
           destruct (parse_u8 s1) as [sp|] eqn:E1; [|discriminate].
           destruct (parse_u8 s2) as [r|] eqn:E2; [|discriminate].
           intros H. inv H. exists d, w, sp, r, s3. split; auto.
           pose proof (proj1 (Hd d) eq_refl).
           apply parse_u16_iff in E0. apply parse_u8_iff in E1, E2.
           now apply (Ma c d s0 s1 s2).
      * intros (d & w & sp & r & t & -> & H). inv H. cbn [app].
        rewrite !splitn_app by eauto with multi. rewrite splitn_1.
        unfold parse_int, next.
        erewrite (proj2 (Hd d)) by assumption.
        erewrite (proj2 (parse_u16_iff _ _)) by eassumption.
        erewrite (proj2 (parse_u8_iff ss sp)) by assumption.
        erewrite (proj2 (parse_u8_iff sr r)) by assumption. reflexivity.
    + left. exists c, s. splits; auto. now rewrite slice_from_1_wide.
Qed.

Lemma MovingArgs_head s d w sp r t : MovingArgs s d w sp r t ->
  exists c x, s = c :: x /\ DirCh c d.
Proof. intros H. inv H. eauto. Qed.

Lemma DirCh_not_digit c d n : DirCh c d -> DigitVal 10 c n -> False.
Proof. unfold DigitVal. intros H H'. inv H; inv H0; lia. Qed.

Lemma pf_mv : PF parse_moving_text "mv".
Proof.
  code_start. unfold parse_moving_text. cbn [app]. rewrite len2_gt by auto.
  destruct r as [|x r]; cbn [is_empty negb].
  - no_split. eexists. split; [reflexivity|]. intros v. split; [discriminate|]. intros H. inv H.
  - destruct (Z.lt_ge_cases x 128) as [Hx|Hx].
    2:{ left. split; [|now constructor].
        unfold slice_from, split_at. cbn [str_split].
        rewrite !utf8_len_ascii by auto. cbn [Z.eqb Z.ltb Z.compare Pos.compare Pos.compare_cont].
        change (3 - 1 - 1) with 1. cbn [str_split]. pose proof (utf8_len_wide x Hx).
        destruct (Z.eqb_spec 1 0); [lia|]. destruct (Z.ltb_spec 1 (utf8_len x)); [|lia]. reflexivity. }
    rewrite slice_from_3 by auto. cbn [bind].
    assert (Hsl : slice (c0 :: c1 :: x :: r) 2 3 = Val [x]).
    { apply (slice_app [c0; c1] [x] r); cbn [len]; rewrite !utf8_len_ascii by auto; reflexivity. }
    rewrite Hsl. cbn [bind].
    pose proof (head_is x "c" "C" 99 ltac:(lia) eq_refl eq_refl) as Hc.
    pose proof (head_is x "l" "L" 108 ltac:(lia) eq_refl eq_refl) as Hl.
    assert (Hcl : CodeCh 99 x -> CodeCh 108 x -> False) by (intros A B; inv A; inv B; lia).
    destruct (str_eqb [x] (lit "c") || str_eqb [x] (lit "C")) eqn:Ec.
    + assert (HC : CodeCh 99 x) by now apply Hc.
      destruct (moving_mode r Circular) as [(c & r' & -> & Hw & ->)|[Hw (o & -> & Ho)]].
      * left. split; auto. now apply Sa_mvc.
      * right. split.
        { intros H. inversion H; subst; try lia.
          - specialize (Hw _ _ eq_refl). lia.
          - eauto.
          - eauto. }
        exists o. split; auto. intros v. rewrite Ho. split.
        -- intros (d & w & sp & rr & t & -> & HM). now constructor.
        -- intros H. inversion H; subst.
           ++ do 5 eexists. eauto.
           ++ exfalso. eauto.
           ++ exfalso. eauto.
    + assert (HnC : ~ CodeCh 99 x) by (intros A; apply Hc in A; discriminate).
      destruct (str_eqb [x] (lit "l") || str_eqb [x] (lit "L")) eqn:El.
      * assert (HL : CodeCh 108 x) by now apply Hl.
        unfold parse_moving_text_linear. destruct r as [|e r]; cbn [is_empty negb].
        -- right. split. { intros H. inversion H; subst; lia. }
           eexists. split; [reflexivity|]. intros v. split; [discriminate|].
           intros H. inversion H; subst; match goal with HM : MovingArgs [] _ _ _ _ _ |- _ => inv HM end.
        -- destruct (Z.lt_ge_cases e 128) as [He|He].
           2:{ rewrite slice_from_1_wide by auto. left. split; auto. now apply Sa_mvl. }
           rewrite slice_from_1, slice_to_1 by auto. cbn [bind].
           destruct (parse_u8 [e]) as [i|] eqn:E8.
           ++ apply parse_u8_iff in E8. apply Num8_single in E8.
              destruct (moving_mode r (Linear i)) as [(c & r' & -> & Hw & ->)|[Hw (o & -> & Ho)]].
              ** left. split; auto. eapply Sa_mvln; eauto.
              ** right. split.
                 { intros H. inversion H; subst; try lia; try contradiction.
                   specialize (Hw _ _ eq_refl). lia. }
                 exists o. split; auto. intros v. rewrite Ho. split.
                 --- intros (d & w & sp & rr & t & -> & HM). now constructor.
                 --- intros H. inversion H; subst; try contradiction.
                     +++ exfalso. match goal with HM : MovingArgs _ _ _ _ _ _ |- _ =>
                           apply MovingArgs_head in HM as (? & ? & HE & HD) end. inv HE.
                         eapply DirCh_not_digit; eauto.
                     +++ match goal with HD : DigitVal 10 e ?n |- _ =>
                           assert (n = i) as -> by (eapply DigitVal_fun; eauto) end.
                         do 5 eexists. eauto.
           ++ assert (Hnd : forall n, ~ DigitVal 10 e n).
              { intros n Hd. apply Num8_single, parse_u8_iff in Hd. congruence. }
              destruct (moving_mode (e :: r) (Linear 0)) as [(c & r' & E & Hw & ->)|[Hw (o & -> & Ho)]].
              ** inv E. lia.
              ** right. split.
                 { intros H. inversion H; subst; try lia; try contradiction.
                   eapply Hnd; eauto. }
                 exists o. split; auto. intros v. rewrite Ho. split.
                 --- intros (d & w & sp & rr & t & -> & HM). now constructor.
                 --- intros H. inversion H; subst; try contradiction.
                     +++ do 5 eexists. eauto.
                     +++ exfalso. eapply Hnd; eauto.
      * assert (HnL : ~ CodeCh 108 x) by (intros A; apply Hl in A; discriminate).
        right. split. { intros H. inversion H; subst; try lia; contradiction. }
        eexists. split; [reflexivity|]. intros v. split; [discriminate|].
        intros H. inversion H; subst; contradiction.
Qed.
