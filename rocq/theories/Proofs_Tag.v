(** [parse_tag] and [try_from] against [Spec_Multi.TagDenotes]. *)

From Coq Require Import String.
From Verif Require Import Base Str Multi Spec_Multi Proofs_Str Proofs_Split Proofs_Parse.

Ltac code_concrete H :=
  first [ eapply Code_1 in H; [|reflexivity]; destruct H as (?c & -> & ?H0)
        | eapply Code_2 in H; [|reflexivity]; destruct H as (?c & ?c & -> & ?H0 & ?H0)
        | eapply Code_3 in H; [|reflexivity]; destruct H as (?c & ?c & ?c & -> & ?H0 & ?H0 & ?H0) ];
  repeat match goal with
    | X : CodeCh _ _ |- _ => vm_compute in X; apply CodeCh_cases in X;
        let R := fresh in destruct X as [->|[R ->]]; [|try (exfalso; clear -R; lia); clear R]
    end.

Lemma disp_nl k r : Code "nl" k -> parse_tag (k ++ r) = ok_or_value (k ++ r) (parse_new_line (k ++ r)).
Proof. intros H. code_concrete H; reflexivity. Qed.
Lemma disp_np k r : Code "np" k -> parse_tag (k ++ r) = ok_or_value (k ++ r) (parse_new_page (k ++ r)).
Proof. intros H. code_concrete H; reflexivity. Qed.
Lemma disp_fo k r : Code "fo" k -> parse_tag (k ++ r) = ok_or_value (k ++ r) (parse_font (k ++ r)).
Proof. intros H. code_concrete H; reflexivity. Qed.
Lemma disp_jl k r : Code "jl" k ->
  parse_tag (k ++ r) = ok_or_value (k ++ r) (parse_justification_line (k ++ r)).
Proof. intros H. code_concrete H; reflexivity. Qed.
Lemma disp_jp k r : Code "jp" k ->
  parse_tag (k ++ r) = ok_or_value (k ++ r) (parse_justification_page (k ++ r)).
Proof. intros H. code_concrete H; reflexivity. Qed.
Lemma disp_pt k r : Code "pt" k -> parse_tag (k ++ r) = ok_or_value (k ++ r) (parse_page_time (k ++ r)).
Proof. intros H. code_concrete H; reflexivity. Qed.
Lemma disp_pb k r : Code "pb" k ->
  parse_tag (k ++ r) = ok_or_value (k ++ r) (parse_page_background (k ++ r)).
Proof. intros H. code_concrete H; reflexivity. Qed.
Lemma disp_cf k r : Code "cf" k ->
  parse_tag (k ++ r) = ok_or_value (k ++ r) (parse_color_foreground (k ++ r)).
Proof. intros H. code_concrete H; reflexivity. Qed.
Lemma disp_cr k r : Code "cr" k ->
  parse_tag (k ++ r) = ok_or_value (k ++ r) (parse_color_rectangle (k ++ r)).
Proof. intros H. code_concrete H; reflexivity. Qed.
Lemma disp_tr k r : Code "tr" k ->
  parse_tag (k ++ r) = ok_or_value (k ++ r) (parse_text_rectangle (k ++ r)).
Proof. intros H. code_concrete H; reflexivity. Qed.
Lemma disp_cb k r : Code "cb" k ->
  parse_tag (k ++ r) = ok_or_value (k ++ r) (parse_color_background (k ++ r)).
Proof. intros H. code_concrete H; reflexivity. Qed.
Lemma disp_sc k r : Code "sc" k ->
  parse_tag (k ++ r) = ok_or_value (k ++ r) (parse_spacing_character (k ++ r)).
Proof. intros H. code_concrete H; reflexivity. Qed.
Lemma disp_hc k r : Code "hc" k ->
  parse_tag (k ++ r) = ok_or_value (k ++ r) (parse_hexadecimal_character (k ++ r)).
Proof. intros H. code_concrete H; reflexivity. Qed.
Lemma disp_fl k r : Code "fl" k -> parse_tag (k ++ r) = ok_or_value (k ++ r) (parse_flash_time (k ++ r)).
Proof. intros H. code_concrete H; reflexivity. Qed.
Lemma disp_mv k r : Code "mv" k -> parse_tag (k ++ r) = ok_or_value (k ++ r) (parse_moving_text (k ++ r)).
Proof. intros H. code_concrete H; reflexivity. Qed.
Lemma disp_ms k r : Code "ms" k ->
  parse_tag (k ++ r) = ok_or_value (k ++ r) (parse_manufacturer_specific (k ++ r)).
Proof. intros H. code_concrete H; reflexivity. Qed.
Lemma disp_g k r : Code "g" k -> parse_tag (k ++ r) = ok_or_value (k ++ r) (parse_graphic (k ++ r)).
Proof. intros H. code_concrete H; reflexivity. Qed.
Lemma disp_scend k r : Code "/sc" k ->
  parse_tag (k ++ r) = ok_or_value (k ++ r) (parse_spacing_character_end (k ++ r)).
Proof. intros H. code_concrete H; reflexivity. Qed.
Lemma disp_flend k r : Code "/fl" k ->
  parse_tag (k ++ r) = ok_or_value (k ++ r) (parse_flash_end (k ++ r)).
Proof. intros H. code_concrete H; reflexivity. Qed.
Lemma disp_msend k r : Code "/ms" k ->
  parse_tag (k ++ r) = ok_or_value (k ++ r) (parse_manufacturer_specific_end (k ++ r)).
Proof. intros H. code_concrete H; reflexivity. Qed.

(** For [f] the next character decides. *)
Lemma disp_f k r : Code "f" k ->
  (forall c x, r = c :: x -> ~ CodeCh 111 c /\ ~ CodeCh 108 c /\ ~ CodeCh 101 c) ->
  parse_tag (k ++ r) = ok_or_value (k ++ r) (parse_field (k ++ r)).
Proof.
  intros H Hr. code_concrete H; (destruct r as [|x r]; [reflexivity|]);
    destruct (Hr _ _ eq_refl) as (H1 & H2 & H3);
    assert (N1 : (to_lower x =? 111) = false)
      by (destruct (Z.eqb_spec (to_lower x) 111) as [E|]; auto; apply to_lower_CodeCh in E; [contradiction|lia]);
    assert (N2 : (to_lower x =? 108) = false)
      by (destruct (Z.eqb_spec (to_lower x) 108) as [E|]; auto; apply to_lower_CodeCh in E; [contradiction|lia]);
    assert (N3 : (to_lower x =? 101) = false)
      by (destruct (Z.eqb_spec (to_lower x) 101) as [E|]; auto; apply to_lower_CodeCh in E; [contradiction|lia]);
    unfold parse_tag; cbn [app map nth_error is_ch andb];
    match goal with |- context [to_lower ?c =? 110] =>
      replace (to_lower c) with 102 by reflexivity end;
    cbn [Z.eqb Pos.eqb andb]; rewrite N1, N2, N3; reflexivity.
Qed.

Lemma Code2_intro l a b c d :
  lit l = [a; b] -> CodeCh a c -> CodeCh b d -> Code l [c; d].
Proof. unfold Code. intros -> H1 H2. repeat constructor; auto. Qed.
Lemma Code3_intro l a b e c d f :
  lit l = [a; b; e] -> CodeCh a c -> CodeCh b d -> CodeCh e f -> Code l [c; d; f].
Proof. unfold Code. intros -> H1 H2 H3. repeat constructor; auto. Qed.
Lemma Code1_intro l a c : lit l = [a] -> CodeCh a c -> Code l [c].
Proof. unfold Code. intros -> H1. repeat constructor; auto. Qed.

Lemma is_ch_nth tag i l : 97 <= l <= 122 ->
  is_ch (nth_error (map to_lower tag) i) l = true <->
  exists c, nth_error tag i = Some c /\ CodeCh l c.
Proof.
  intros Hl. rewrite nth_error_map. destruct (nth_error tag i) as [c|]; cbn.
  - rewrite Z.eqb_eq, to_lower_CodeCh by auto. split; [eauto|]. now intros (x & [= ->] & H).
  - split; [discriminate|]. now intros (x & H & _).
Qed.

Lemma is_ch_slash tag i :
  is_ch (nth_error (map to_lower tag) i) 47 = true <-> nth_error tag i = Some 47.
Proof.
  rewrite nth_error_map. destruct (nth_error tag i) as [c|]; cbn.
  - rewrite Z.eqb_eq, to_lower_slash. split; congruence.
  - split; discriminate.
Qed.

Lemma two_chars tag l a b :
  lit l = [a; b] -> 97 <= a <= 122 -> 97 <= b <= 122 ->
  is_ch (nth_error (map to_lower tag) 0) a && is_ch (nth_error (map to_lower tag) 1) b = true ->
  exists k r, tag = k ++ r /\ Code l k.
Proof.
  intros Hl Ha Hb H. apply andb_true_iff in H as [H0 H1].
  apply is_ch_nth in H0 as (c & E0 & C0); auto. apply is_ch_nth in H1 as (d & E1 & C1); auto.
  destruct tag as [|x [|y r]]; try discriminate. cbn in E0, E1.
  injection E0 as ->. injection E1 as ->. exists [c; d], r. split; auto. eapply Code2_intro; eauto.
Qed.

Lemma three_chars tag l b e :
  lit l = [47; b; e] -> 97 <= b <= 122 -> 97 <= e <= 122 ->
  is_ch (nth_error (map to_lower tag) 0) 47 && is_ch (nth_error (map to_lower tag) 1) b
    && is_ch (nth_error (map to_lower tag) 2) e = true ->
  exists k r, tag = k ++ r /\ Code l k.
Proof.
  intros Hl Hb He H. apply andb_true_iff in H as [H H2]. apply andb_true_iff in H as [H0 H1].
  apply is_ch_slash in H0. apply is_ch_nth in H1 as (d & E1 & C1); auto.
  apply is_ch_nth in H2 as (f & E2 & C2); auto.
  destruct tag as [|x [|y [|z r]]]; try discriminate. cbn in H0, E1, E2.
  injection H0 as ->. injection E1 as ->. injection E2 as ->.
  exists [47; d; f], r. split; auto. eapply Code3_intro; eauto. constructor.
Qed.

Lemma one_char tag l a :
  lit l = [a] -> 97 <= a <= 122 -> is_ch (nth_error (map to_lower tag) 0) a = true ->
  exists k r, tag = k ++ r /\ Code l k.
Proof.
  intros Hl Ha H. apply is_ch_nth in H as (c & E0 & C0); auto.
  destruct tag as [|x r]; try discriminate. cbn in E0. injection E0 as ->.
  exists [c], r. split; auto. eapply Code1_intro; eauto.
Qed.

Definition parsers : list (string * (str -> M (option Value))) :=
  [("nl", parse_new_line); ("np", parse_new_page); ("fo", parse_font);
   ("jl", parse_justification_line); ("jp", parse_justification_page);
   ("pt", parse_page_time); ("pb", parse_page_background); ("cf", parse_color_foreground);
   ("cr", parse_color_rectangle); ("tr", parse_text_rectangle); ("cb", parse_color_background);
   ("sc", parse_spacing_character); ("hc", parse_hexadecimal_character);
   ("fl", parse_flash_time); ("mv", parse_moving_text); ("ms", parse_manufacturer_specific);
   ("f", parse_field); ("g", parse_graphic); ("/sc", parse_spacing_character_end);
   ("/fl", parse_flash_end); ("/ms", parse_manufacturer_specific_end)]%string.

Lemma parsers_PF l f : In (l, f) parsers -> PF f l.
Proof.
  unfold parsers. cbn [In]. intros H.
  repeat match type of H with _ \/ _ =>
    destruct H as [H|H];
    [inv H; auto using pf_nl, pf_np, pf_fo, pf_jl, pf_jp, pf_pt, pf_pb, pf_cf, pf_cr, pf_tr, pf_cb,
       pf_sc, pf_hc, pf_fl, pf_mv, pf_ms, pf_f, pf_g, pf_scend, pf_flend, pf_msend|] end.
  destruct H.
Qed.

Definition fe_body (body : str) : Prop := exists k r, Code "fe" k /\ body = k ++ r.

Lemma parsers_known l f : In (l, f) parsers -> In l known_codes.
Proof.
  unfold parsers, known_codes. cbn [In]. intros H.
  repeat match type of H with _ \/ _ => destruct H as [H|H]; [inv H; tauto|] end. destruct H.
Qed.

Lemma parse_tag_cases body :
  (exists l f k r, body = k ++ r /\ Code l k /\ In (l, f) parsers /\ ~ fe_body body
     /\ parse_tag body = ok_or_value body (f body))
  \/ (~ KnownCode body /\ parse_tag body = Val (Err (SUnsupportedTag body))).
Proof.
  assert (Hfe : is_ch (nth_error (map to_lower body) 0) 102
                && is_ch (nth_error (map to_lower body) 1) 101 = false -> ~ fe_body body).
  { intros E (k & r & HC & ->). code_concrete HC; discriminate E. }
  assert (Hfe' : is_ch (nth_error (map to_lower body) 0) 102
                && is_ch (nth_error (map to_lower body) 1) 101 = true -> fe_body body).
  { intros E. apply (two_chars body "fe") in E as (k & r & -> & HC); [|reflexivity|lia|lia].
    exists k, r. auto. }
  Ltac found2 l f E :=
    left; apply (two_chars _ l) in E as (k & r & -> & HC); [|reflexivity|lia|lia];
    exists l, f, k, r; splits; auto;
    [unfold parsers; cbn [In]; tauto
    |intros (k' & r' & HC' & E'); code_concrete HC; code_concrete HC'; discriminate E'].
  unfold parse_tag.
  destruct (is_ch _ 110 && is_ch _ 108) eqn:E1; [found2 "nl"%string parse_new_line E1|].
  destruct (is_ch _ 110 && is_ch _ 112) eqn:E2; [found2 "np"%string parse_new_page E2|].
  destruct (is_ch _ 102 && is_ch _ 111) eqn:E3; [found2 "fo"%string parse_font E3|].
  destruct (is_ch _ 106 && is_ch _ 108) eqn:E4; [found2 "jl"%string parse_justification_line E4|].
  destruct (is_ch _ 106 && is_ch _ 112) eqn:E5; [found2 "jp"%string parse_justification_page E5|].
  destruct (is_ch _ 112 && is_ch _ 116) eqn:E6; [found2 "pt"%string parse_page_time E6|].
  destruct (is_ch _ 112 && is_ch _ 98) eqn:E7; [found2 "pb"%string parse_page_background E7|].
  destruct (is_ch _ 99 && is_ch _ 102) eqn:E8; [found2 "cf"%string parse_color_foreground E8|].
  destruct (is_ch _ 99 && is_ch _ 114) eqn:E9; [found2 "cr"%string parse_color_rectangle E9|].
  destruct (is_ch _ 116 && is_ch _ 114) eqn:E10; [found2 "tr"%string parse_text_rectangle E10|].
  destruct (is_ch _ 99 && is_ch _ 98) eqn:E11; [found2 "cb"%string parse_color_background E11|].
  destruct (is_ch _ 115 && is_ch _ 99) eqn:E12; [found2 "sc"%string parse_spacing_character E12|].
  destruct (is_ch _ 104 && is_ch _ 99) eqn:E13; [found2 "hc"%string parse_hexadecimal_character E13|].
  destruct (is_ch _ 102 && is_ch _ 108) eqn:E14; [found2 "fl"%string parse_flash_time E14|].
  destruct (is_ch _ 109 && is_ch _ 118) eqn:E15; [found2 "mv"%string parse_moving_text E15|].
  destruct (is_ch _ 109 && is_ch _ 115) eqn:E16; [found2 "ms"%string parse_manufacturer_specific E16|].
  destruct (is_ch _ 102 && is_ch _ 101) eqn:E17.
  { right. split; auto. intros [_ H]. apply H. now apply Hfe'. }
  specialize (Hfe eq_refl).
  destruct (is_ch (nth_error _ 0) 102) eqn:E18.
  { left. apply (one_char _ "f") in E18 as (k & r & -> & HC); [|reflexivity|lia].
    exists "f"%string, parse_field, k, r. splits; auto. unfold parsers; cbn [In]; tauto. }
  destruct (is_ch (nth_error _ 0) 103) eqn:E19.
  { left. apply (one_char _ "g") in E19 as (k & r & -> & HC); [|reflexivity|lia].
    exists "g"%string, parse_graphic, k, r. splits; auto. unfold parsers; cbn [In]; tauto. }
  destruct (is_ch _ 47 && is_ch _ 115 && is_ch _ 99) eqn:E20.
  { left. apply (three_chars _ "/sc") in E20 as (k & r & -> & HC); [|reflexivity|lia|lia].
    exists "/sc"%string, parse_spacing_character_end, k, r. splits; auto. unfold parsers; cbn [In]; tauto. }
  destruct (is_ch _ 47 && is_ch _ 102 && is_ch _ 108) eqn:E21.
  { left. apply (three_chars _ "/fl") in E21 as (k & r & -> & HC); [|reflexivity|lia|lia].
    exists "/fl"%string, parse_flash_end, k, r. splits; auto. unfold parsers; cbn [In]; tauto. }
  destruct (is_ch _ 47 && is_ch _ 109 && is_ch _ 115) eqn:E22.
  { left. apply (three_chars _ "/ms") in E22 as (k & r & -> & HC); [|reflexivity|lia|lia].
    exists "/ms"%string, parse_manufacturer_specific_end, k, r. splits; auto. unfold parsers; cbn [In]; tauto. }
  right. split; auto. intros [(l & k & r & Hin & HC & ->) _].
  unfold known_codes in Hin. cbn [In] in Hin.
  repeat match type of Hin with _ \/ _ => destruct Hin as [Hin|Hin]; [subst l; code_concrete HC; discriminate|] end.
  destruct Hin.
Qed.

Lemma Num_head radix bound s n : Num radix bound s n -> exists c x, s = c :: x /\ alnum radix c.
Proof.
  intros H. pose proof (Num_nonempty _ _ _ _ H). apply Num_chars in H. destruct s as [|c s]; [congruence|].
  inv H. eauto.
Qed.

(** Dispatch on a code that denotes. *)
Lemma disp_all l k r :
  Code l k -> (exists v, ArgDenotes l r v) \/ SplitsArg l r ->
  exists f, In (l, f) parsers /\ parse_tag (k ++ r) = ok_or_value (k ++ r) (f (k ++ r)).
Proof.
  intros HC [[v Hv]|Hs].
  - assert (Hf : l = "f"%string ->
       forall c x, r = c :: x -> ~ CodeCh 111 c /\ ~ CodeCh 108 c /\ ~ CodeCh 101 c).
    { intros -> c x ->.
      assert (HD : alnum 10 c).
      { inversion Hv; subst;
          match goal with HN : Num8 ?s _ |- _ => apply Num_head in HN as (c' & x' & E' & HA) end.
        - congruence.
        - subst s. match goal with E : (_ :: _) ++ _ = _ :: _ |- _ => injection E as -> _ end. auto. }
      unfold alnum, DigitVal in HD.
      splits; intros A; inv A; destruct HD as [|[d HD]]; lia. }
    inversion Hv; subst;
      (eexists; split; [unfold parsers; cbn [In]; eauto 30|]);
      auto using disp_nl, disp_np, disp_fo, disp_jl, disp_jp, disp_pt, disp_pb, disp_cf, disp_cr,
        disp_tr, disp_cb, disp_sc, disp_hc, disp_fl, disp_mv, disp_ms, disp_g, disp_scend,
        disp_flend, disp_msend;
      exact (disp_f _ _ HC (Hf eq_refl)).
  - inversion Hs; subst;
      (eexists; split; [unfold parsers; cbn [In]; eauto 30|]); auto using disp_fl, disp_mv.
Qed.

Lemma ok_or_value_ok tag m v : ok_or_value tag m = Val (Ok v) <-> m = Val (Some v).
Proof.
  unfold ok_or_value. destruct m as [[x|]| |]; cbn; split; congruence.
Qed.

Lemma parse_tag_ok body v : parse_tag body = Val (Ok v) <-> TagDenotes body v.
Proof.
  split.
  - intros E. destruct (parse_tag_cases body) as [(l & f & k & r & -> & HC & Hin & _ & E')|[_ E']];
      rewrite E' in E; [|discriminate].
    apply ok_or_value_ok in E. apply parsers_PF in Hin.
    destruct (Hin k r HC) as [[Hp _]|[_ (o & Ho & Hv)]]; [congruence|].
    rewrite Ho in E. injection E as ->. exists l, k, r. splits; auto. now apply Hv.
  - intros (l & k & r & -> & HC & Hv).
    destruct (disp_all l k r HC) as (f & Hin & ->); [eauto|].
    apply ok_or_value_ok. apply parsers_PF in Hin.
    destruct (Hin k r HC) as [[_ Hs]|[_ (o & Ho & Hv')]].
    + exfalso. inversion Hs; subst; inversion Hv; subst;
      repeat match goal with
        | H : CodeCh _ _ |- _ => inv H
        | H : MovingArgs _ _ _ _ _ _ |- _ => inv H
        | H : DirCh _ _ |- _ => inv H
        | H : DigitVal _ _ _ |- _ => unfold DigitVal in H
        end; try lia.
    + rewrite Ho. f_equal. now apply Hv'.
Qed.

Lemma parse_tag_panic body : parse_tag body = Panic <-> SplitsChar body.
Proof.
  split.
  - intros E. destruct (parse_tag_cases body) as [(l & f & k & r & -> & HC & Hin & _ & E')|[_ E']];
      rewrite E' in E; [|discriminate].
    apply parsers_PF in Hin.
    destruct (Hin k r HC) as [[Hp Hs]|[_ (o & Ho & Hv)]].
    + exists l, k, r. auto.
    + rewrite Ho in E. discriminate.
  - intros (l & k & r & -> & HC & Hs).
    destruct (disp_all l k r HC) as (f & Hin & ->); [eauto|].
    apply parsers_PF in Hin.
    destruct (Hin k r HC) as [[-> _]|[Hn _]]; [reflexivity|contradiction].
Qed.

Lemma parse_tag_no_hang body : parse_tag body <> Hang.
Proof.
  intros E. destruct (parse_tag_cases body) as [(l & f & k & r & -> & HC & Hin & _ & E')|[_ E']];
    rewrite E' in E; [|discriminate].
  apply parsers_PF in Hin.
  destruct (Hin k r HC) as [[Hp Hs]|[_ (o & Ho & Hv)]]; rewrite ?Hp, ?Ho in E; discriminate.
Qed.

Lemma parse_tag_err_value body t :
  parse_tag body = Val (Err (SUnsupportedTagValue t)) <->
  t = body /\ KnownCode body /\ (forall v, ~ TagDenotes body v) /\ ~ SplitsChar body.
Proof.
  split.
  - intros E. assert (H1 : forall v, ~ TagDenotes body v)
      by (intros v Hv; apply parse_tag_ok in Hv; congruence).
    assert (H2 : ~ SplitsChar body) by (intros Hv; apply parse_tag_panic in Hv; congruence).
    destruct (parse_tag_cases body) as [(l & f & k & r & Eb & HC & Hin & Hfe & E')|[_ E']];
      rewrite E' in E; [|discriminate].
    splits; auto.
    + unfold ok_or_value in E. destruct (f body) as [[v|]| |]; cbn in E; try discriminate. congruence.
    + split; auto. exists l, k, r. splits; auto. eapply parsers_known; eauto.
  - intros (-> & HK & H1 & H2).
    destruct (parse_tag_cases body) as [(l & f & k & r & Eb & HC & Hin & Hfe & E')|[Hn _]];
      [|contradiction].
    rewrite E'. destruct (f body) as [[v|]| |] eqn:Ef.
    + exfalso. apply (H1 v). apply parse_tag_ok. now rewrite E'.
    + reflexivity.
    + exfalso. apply H2. apply parse_tag_panic. now rewrite E'.
    + exfalso. apply (parse_tag_no_hang body). now rewrite E'.
Qed.

Lemma parse_tag_err_tag body t :
  parse_tag body = Val (Err (SUnsupportedTag t)) <-> t = body /\ ~ KnownCode body.
Proof.
  split.
  - intros E.
    destruct (parse_tag_cases body) as [(l & f & k & r & Eb & HC & Hin & Hfe & E')|[Hn E']];
      rewrite E' in E.
    + unfold ok_or_value in E. destruct (f body) as [[v|]| |]; cbn in E; discriminate.
    + split; [congruence|auto].
  - intros (-> & Hn).
    destruct (parse_tag_cases body) as [(l & f & k & r & Eb & HC & Hin & Hfe & E')|[_ E']]; auto.
    exfalso. apply Hn. split; auto. exists l, k, r. splits; auto. eapply parsers_known; eauto.
Qed.

Lemma parse_tag_total body :
  parse_tag body = Panic \/ (exists v, parse_tag body = Val (Ok v))
  \/ parse_tag body = Val (Err (SUnsupportedTagValue body))
  \/ parse_tag body = Val (Err (SUnsupportedTag body)).
Proof.
  destruct (parse_tag_cases body) as [(l & f & k & r & Eb & HC & Hin & Hfe & E')|[_ E']]; auto.
  rewrite E'. pose proof (parse_tag_no_hang body) as Hh. rewrite E' in Hh. clear E'.
  destruct (f body) as [[v|]| |]; cbn in *; eauto. congruence.
Qed.

(** [TagDenotes] is functional. *)
Lemma TagDenotes_fun b v v' : TagDenotes b v -> TagDenotes b v' -> v = v'.
Proof. intros H H'. apply parse_tag_ok in H, H'. congruence. Qed.

(** ** Tokens *)

Lemma ends_with_snoc s c d : ends_with_ch (s ++ [c]) d = (c =? d).
Proof. unfold ends_with_ch. now rewrite rev_app_distr. Qed.

Lemma try_from_tag b : plain b -> try_from (91 :: b ++ [93]) = parse_tag b.
Proof.
  intros Hb. unfold try_from.
  assert (E1 : str_eqb (91 :: b ++ [93]) (lit "[[") || str_eqb (91 :: b ++ [93]) (lit "]]") = false).
  { apply orb_false_iff. split.
    - destruct (str_eqb (91 :: b ++ [93]) (lit "[[")) eqn:E; auto. apply str_eqb_iff in E.
      destruct b as [|c [|? ?]]; discriminate.
    - destruct (str_eqb (91 :: b ++ [93]) (lit "]]")) eqn:E; [apply str_eqb_iff in E; discriminate|auto]. }
  rewrite E1. change (91 :: b ++ [93]) with ((91 :: b) ++ [93]) at 2. rewrite ends_with_snoc. cbn [starts_with].
  rewrite ?starts_with_nil. cbn [Z.eqb Pos.eqb andb].
  rewrite (slice_app [91] b [93]); [reflexivity|reflexivity|].
  cbn [len]. rewrite len_app. cbn [len]. rewrite !utf8_len_ascii by lia. lia.
Qed.

Lemma try_from_unterminated b :
  plain b -> try_from (91 :: b) = Val (Err (SUnsupportedTag (91 :: b))).
Proof.
  intros Hb. unfold try_from.
  assert (E1 : str_eqb (91 :: b) (lit "[[") || str_eqb (91 :: b) (lit "]]") = false).
  { apply orb_false_iff. split.
    - destruct (str_eqb (91 :: b) (lit "[[")) eqn:E; auto. apply str_eqb_iff in E.
      injection E as ->. inv Hb. lia.
    - destruct (str_eqb (91 :: b) (lit "]]")) eqn:E; [apply str_eqb_iff in E; discriminate|auto]. }
  rewrite E1. cbn [starts_with]. rewrite ?starts_with_nil. cbn [Z.eqb Pos.eqb andb].
  assert (E2 : ends_with_ch (91 :: b) 93 = false).
  { destruct (exists_last (l := 91 :: b)) as (p & c & E); [congruence|]. rewrite E, ends_with_snoc.
    destruct (Z.eqb_spec c 93) as [->|]; auto. exfalso.
    destruct p as [|x p]; [discriminate|]. injection E as <- ->.
    apply Forall_app in Hb as [_ Hb]. inv Hb. lia. }
  rewrite E2. reflexivity.
Qed.

Lemma try_from_text t : t <> [] -> plain t ->
  (Forall text_char t /\ try_from t = Val (Ok (VText t)))
  \/ (~ Forall text_char t /\ try_from t = Val (Err (SOther (lit "Invalid code point")))).
Proof.
  intros Hn Hp. unfold try_from. destruct t as [|c t]; [congruence|].
  apply plain_cons in Hp as Hp'. destruct Hp' as (H1 & H2 & _).
  assert (E1 : str_eqb (c :: t) (lit "[[") || str_eqb (c :: t) (lit "]]") = false).
  { apply orb_false_iff. split; [destruct (str_eqb (c :: t) (lit "[[")) eqn:E
      |destruct (str_eqb (c :: t) (lit "]]")) eqn:E]; auto;
    apply str_eqb_iff in E; injection E as -> _; lia. }
  rewrite E1. cbn [starts_with]. rewrite ?starts_with_nil.
  destruct (Z.eqb_spec c 91); [lia|]. destruct (Z.eqb_spec c 93); [lia|]. cbn [andb orb].
  destruct (existsb (fun c => negb (text_char_ok c)) (c :: t)) eqn:E.
  - right. split; auto. intros HF. apply existsb_exists in E as (x & Hx & E).
    rewrite Forall_forall in HF. specialize (HF x Hx). unfold text_char, text_char_ok in *.
    destruct (Z.leb_spec 1 x), (Z.leb_spec x 255); cbn in E; try discriminate; lia.
  - left. split; auto. rewrite Forall_forall. intros x Hx. unfold text_char.
    destruct (text_char_ok x) eqn:T.
    + unfold text_char_ok in T. apply andb_true_iff in T as [T1 T2]. apply Z.leb_le in T1, T2. lia.
    + exfalso. assert (existsb (fun c => negb (text_char_ok c)) (c :: t) = true)
        by (apply existsb_exists; exists x; split; auto; now rewrite T). congruence.
Qed.

Lemma try_from_token t rest : Token t rest ->
  (PanicToken t /\ try_from t = Panic)
  \/ (~ PanicToken t /\ exists res, try_from t = Val res /\ TokenDenotes t res).
Proof.
  intros H. inv H.
  - right. split.
    + intros (b & Hb & E & _). injection E as E. destruct b as [|c b]; [discriminate|].
      destruct b; discriminate.
    + eexists. split; [reflexivity|constructor].
  - right. split.
    + intros (b & Hb & E & _). discriminate.
    + eexists. split; [reflexivity|constructor].
  - rewrite try_from_tag by auto.
    assert (HU : forall b', plain b' -> 91 :: b ++ [93] = 91 :: b' ++ [93] -> b' = b).
    { intros b' _ E. injection E as E. apply app_inj_tail in E as [-> _]. reflexivity. }
    destruct (parse_tag_total b) as [E|[(v & E)|[E|E]]].
    + left. split; auto. exists b. splits; auto. now apply parse_tag_panic.
    + right. split.
      { intros (b' & Hb' & E' & HS). apply HU in E'; auto. subst b'. apply parse_tag_panic in HS. congruence. }
      eexists. split; [eassumption|]. constructor; auto. now apply parse_tag_ok.
    + right. split.
      { intros (b' & Hb' & E' & HS). apply HU in E'; auto. subst b'. apply parse_tag_panic in HS. congruence. }
      eexists. split; [eassumption|]. apply parse_tag_err_value in E as (_ & HK & HV & HS).
      now apply Tn_value.
    + right. split.
      { intros (b' & Hb' & E' & HS). apply HU in E'; auto. subst b'. apply parse_tag_panic in HS. congruence. }
      eexists. split; [eassumption|]. apply parse_tag_err_tag in E as (_ & HK). now apply Tn_tag_err.
  - right. split.
    + intros (b' & Hb' & E' & _). injection E' as ->. apply Forall_app in H0 as [_ H0].
      inv H0. lia.
    + eexists. split; [now apply try_from_unterminated|]. now constructor.
  - right. split.
    + intros (b' & Hb' & E' & _). discriminate.
    + eexists. split; [reflexivity|]. constructor.
  - right. split.
    + intros (b' & Hb' & E' & _). subst t. inv H1. lia.
    + destruct (try_from_text t) as [[HF E]|[HF E]]; auto; eexists; (split; [eassumption|]);
        now constructor.
Qed.

(** The meaning of a token is unique. *)
Lemma TokenDenotes_parsable t v : TokenDenotes t (Ok v) -> Parsable v.
Proof. intros H. inv H; econstructor; eauto. Qed.
