(** Reading the lines back from a filled pattern. *)

From Coq Require Import String ZifyBool ZifyNat.
From Verif Require Import Base Str Multi Color Font Config Sign Pattern
  Spec_Multi Spec_Color Spec_Font Spec_Tfon Spec_Sign Spec_Render Spec_Layout Spec_Page Spec_Pattern
  Proofs_Str Proofs_Split Proofs_Print Proofs_Norm Proofs_Iter Proofs_Sign Proofs_Pages Proofs_Place Proofs_Build Proofs_Blank
  Proofs_Pattern Proofs_Fill.
Open Scope list_scope.
Ltac Zify.zify_post_hook ::= Z.div_mod_to_equations.

(** ** Reading one token *)

Lemma read_token md a t rest r : Token t rest -> TokenDenotes t r ->
  ms_next md (mkMS (a ++ t ++ rest) (len a)) = Val (Some r, mkMS (a ++ t ++ rest) (len (a ++ t))).
Proof.
  intros HK HD. destruct (next_slice_token md (a ++ t ++ rest) (len a) a (t ++ rest)) as (t2 & rest2 & Hr & _ & HK2 & E); auto.
  { pose proof (Token_nonempty _ _ HK). destruct t; [congruence|discriminate]. }
  destruct (Token_unique _ _ _ _ HK HK2 Hr) as [<- <-].
  unfold ms_next. rewrite E. cbn [bind]. rewrite (TokenDenotes_try _ _ HD). cbn [bind]. now rewrite len_app.
Qed.

Lemma read_first md t rest r : Token t rest -> TokenDenotes t r ->
  ms_next md (ms_new (t ++ rest)) = Val (Some r, mkMS (t ++ rest) (len t)).
Proof. apply (read_token md []). Qed.

Lemma read_none md a : ms_next md (mkMS a (len a)) = Val (None, mkMS a (len a)).
Proof. unfold ms_next. rewrite next_slice_end by auto. cbn [bind]. now rewrite Z.add_0_r. Qed.

Lemma split_here a b : ms_split (mkMS (a ++ b) (len a)) = Val (a, b).
Proof. unfold ms_split. cbn [ms_str ms_off]. apply split_at_app. Qed.

(** The text of a value is its token. *)
Lemma display_token v rest : Parsable v -> small_hex v ->
  (forall t, v = VText t -> plain t -> at_boundary rest) ->
  Token (display v) rest /\ TokenDenotes (display v) (Ok v).
Proof.
  intros HP HS HB. destruct HP as [| |t Hn Hp Hc|b v Hp HD].
  - split; constructor.
  - split; constructor.
  - rewrite display_text by auto. split; constructor; eauto.
  - destruct (display_tag b v Hp HD HS) as (b' & Hp' & -> & HD'). split; constructor; auto.
Qed.

Lemma display_starts v rest : Parsable v -> small_hex v ->
  (forall t, v = VText t -> ~ plain t) -> at_boundary (display v ++ rest).
Proof.
  intros HP HS HB. right. destruct HP as [| |t Hn Hp Hc|b v Hp HD].
  - exists 91, (91 :: rest). split; [reflexivity|now left].
  - exists 93, (93 :: rest). split; [reflexivity|now right].
  - exfalso. now apply (HB t).
  - destruct (display_tag b v Hp HD HS) as (b' & Hp' & -> & HD'). exists 91, ((b' ++ [93]) ++ rest).
    split; [reflexivity|now left].
Qed.

Lemma not_plain_end b b0 : plain b -> b = b0 ++ [93] -> False.
Proof.
  intros H ->. unfold plain in H. rewrite Forall_forall in H. destruct (H 93); [|congruence].
  apply in_or_app. right. now left.
Qed.

Lemma unterminated_err b v : plain b -> ~ TokenDenotes (91 :: b) (Ok v).
Proof.
  intros Hp HD. inversion HD; subst.
  - inversion Hp; lia.
  - apply (not_plain_end (b0 ++ [93]) b0); auto.
  - match goal with H : plain (91 :: b) |- _ => inversion H; lia end.
Qed.

Lemma stray_err v : ~ TokenDenotes [93] (Ok v).
Proof. intros HD. inversion HD; subst. match goal with H : plain [93] |- _ => inversion H; lia end. Qed.

(** A good token stays one when a tag or nothing follows the string. *)
Lemma token_extend t q rest v : Token t q -> TokenDenotes t (Ok v) -> at_open_or_end rest -> Token t (q ++ rest).
Proof.
  intros HK HD HR. destruct HK as [q|q|b q Hp|b q Hp Ho He|q Hs|t q Hn Hp Hb]; try (now constructor).
  - exfalso. eapply unterminated_err; eauto.
  - exfalso. eapply stray_err; eauto.
  - constructor; auto. destruct Hb as [->|(c & r & -> & Hc)].
    + destruct HR as [->|(r & ->)]; [now left|]. right. exists 91, r. split; auto. now left.
    + right. exists c, (r ++ rest). auto.
Qed.

(** ** Scanning a fillable rectangle *)

Lemma scan_text md w ts us rest : Tokens w ts -> Forall2 TokenDenotes ts (map Ok us) -> Forall line_value us ->
  at_open_or_end rest ->
  (List.length ts <= List.length w)%nat /\ forall f n a lines,
  rect_scan md (List.length ts + f) n (mkMS (a ++ w ++ rest) (len a)) a (w ++ rest) lines
  = rect_scan md f n (mkMS (a ++ w ++ rest) (len (a ++ w))) (a ++ w) rest lines.
Proof.
  intros HT. revert us. induction HT as [|t q ts HK HT IH]; intros us HD HL HR.
  - split; [reflexivity|]. intros f n a lines. cbn [List.length Nat.add app]. now rewrite app_nil_r.
  - inversion HD as [|? r ? rs HDt HDs E1 E2]; subst. destruct us as [|u us]; [discriminate|]. injection E2 as -> E2. subst rs.
    inversion HL as [|? ? Hu HLs]; subst. destruct (IH us HDs HLs HR) as [Hlen IH']. split.
    { rewrite app_length. pose proof (Token_nonempty _ _ HK). destruct t; [congruence|]. cbn [List.length]. lia. }
    intros f n a lines. pose proof (token_extend _ _ rest _ HK HDt HR) as HK'.
    cbn [List.length Nat.add rect_scan]. rewrite <- !app_assoc.
    rewrite (read_token md a t (q ++ rest) _ HK' HDt). cbn [bind].
    assert (ms_split (mkMS (a ++ t ++ q ++ rest) (len (a ++ t))) = Val (a ++ t, q ++ rest)) as ES.
    { rewrite (app_assoc a t). apply split_here. }
    specialize (IH' f n (a ++ t) lines). rewrite <- !app_assoc in IH'.
    destruct u; try destruct Hu; rewrite ES; cbn [bind]; exact IH'.
Qed.

Lemma nl_token rest : Token (lit "[nl]") rest /\ TokenDenotes (lit "[nl]") (Ok (VNewLine None)).
Proof.
  change (lit "[nl]") with (display (VNewLine None)). apply display_token; [|exact I|discriminate].
  apply (Pa_tag (lit "nl")).
  - repeat constructor; discriminate.
  - exists "nl"%string, (lit "nl"), []. splits; [reflexivity| |constructor]. repeat constructor.
Qed.

Lemma scan_nl md f n a rest lines af : 0 < n ->
  rect_scan md (S f) n (mkMS (a ++ lit "[nl]" ++ rest) (len a)) a af lines
  = rect_scan md f (n - 1) (mkMS rest 0) [] rest (lines ++ [a]).
Proof.
  intros Hn. destruct (nl_token rest) as [HK HD]. cbn [rect_scan]. rewrite (read_token md a _ rest _ HK HD). cbn [bind].
  assert ((0 <? n) = true) as -> by lia.
  assert (ms_split (mkMS (a ++ lit "[nl]" ++ rest) (len (a ++ lit "[nl]"))) = Val (a ++ lit "[nl]", rest)) as ->.
  { rewrite (app_assoc a). apply split_here. }
  cbn [bind snd]. change (ms_new rest) with (mkMS ([] ++ rest) (len [])). rewrite split_here. reflexivity.
Qed.

(** What ends the lines of a rectangle. *)
Definition stops (rest : str) : Prop :=
  rest = [] \/ exists t q v, rest = t ++ q /\ Token t q /\ TokenDenotes t (Ok v) /\ ~ line_value v
    /\ (forall x, v <> VNewLine x).

Lemma scan_stop md f n a rest lines : stops rest ->
  rect_scan md (S f) n (mkMS (a ++ rest) (len a)) a rest lines = Val (lines, n, a, rest).
Proof.
  intros [->|(t & q & v & -> & HK & HD & HL & HN)]; cbn [rect_scan].
  - rewrite app_nil_r, read_none. reflexivity.
  - rewrite (read_token md a t q _ HK HD). cbn [bind]. destruct v; try reflexivity; try (exfalso; apply HL; exact I).
    exfalso. eapply HN. reflexivity.
Qed.

Lemma lit_open rest : at_open_or_end (lit "[nl]" ++ rest).
Proof. right. eexists. reflexivity. Qed.

Lemma scan_lines md used : forall x t rest lines, Interspersed (lit "[nl]") (x :: used) t ->
  Forall LineText (x :: used) -> at_open_or_end rest -> stops rest ->
  exists k, (k <= List.length t)%nat /\ forall f,
  rect_scan md (k + S f) (Z.of_nat (List.length (x :: used))) (mkMS (t ++ rest) 0) [] (t ++ rest) lines
  = Val (lines ++ removelast (x :: used), 1, last (x :: used) [], rest).
Proof.
  induction used as [|y used IH]; intros x t rest lines HI HF HR HS.
  - inversion HI; subst. inversion HF as [|? ? (us & (ts & HT & HD) & HL) _]; subst.
    destruct (scan_text md t ts us rest HT HD HL HR) as [Hl E]. exists (List.length ts). split; auto.
    intros f. rewrite (E (S f) _ [] lines). cbn [app]. rewrite scan_stop by auto. cbn [removelast last]. now rewrite app_nil_r.
  - inversion HI as [| |? ? ? r HI' E1 E2]; subst. inversion HF as [|? ? (us & (ts & HT & HD) & HL) HF']; subst.
    destruct (scan_text md x ts us (lit "[nl]" ++ r ++ rest) HT HD HL (lit_open _)) as [Hl E].
    destruct (IH y r rest (lines ++ [x]) HI' HF' HR HS) as (k & Hk & Ek).
    exists (List.length ts + S k)%nat. split. { rewrite !app_length. change (List.length (lit "[nl]")) with 4%nat. lia. }
    intros f. rewrite <- Nat.add_assoc. rewrite <- !app_assoc.
    rewrite (E (S k + S f)%nat _ [] lines). cbn [app Nat.add].
    rewrite scan_nl by (cbn [List.length]; lia).
    replace (Z.of_nat (List.length (x :: y :: used)) - 1) with (Z.of_nat (List.length (y :: used))) by (cbn [List.length]; lia).
    rewrite Ek. rewrite <- app_assoc. reflexivity.
Qed.

(** A whole rectangle with as many lines as it has room for. *)
Lemma scan_rect md used t rest acc : Interspersed (lit "[nl]") used t -> Forall LineText used ->
  at_open_or_end rest -> stops rest ->
  exists ls n b, rect_scan md (S (List.length (t ++ rest))) (Z.of_nat (List.length used)) (ms_new (t ++ rest)) [] (t ++ rest) acc
     = Val (ls, n, b, rest)
    /\ ls ++ pad_lines (Z.to_nat n) b = acc ++ used.
Proof.
  intros HI HF HR HS. destruct used as [|x used].
  - inversion HI; subst. exists acc, 0, []. cbn [app]. split.
    + apply (scan_stop md _ 0 [] rest acc HS).
    + reflexivity.
  - destruct (scan_lines md used x t rest acc HI HF HR HS) as (k & Hk & E).
    exists (acc ++ removelast (x :: used)), 1, (last (x :: used) []). split.
    + rewrite <- (E (List.length (t ++ rest) - k)%nat). f_equal. rewrite app_length. lia.
    + change (Z.to_nat 1) with 1%nat. cbn [pad_lines]. rewrite <- app_assoc. f_equal. symmetry. apply app_removelast_last. discriminate.
Qed.

(** ** Matching the values of the pattern *)

Lemma match_value md d v r fonts rest acc : is_font v = false -> Forall (fun f => is_font f = true) fonts ->
  Forall Parsable fonts -> Parsable v -> small_hex v ->
  (forall t, v = VText t -> plain t -> at_boundary rest) ->
  lines_loop md d (Val (Ok (PVal v)) :: r) (written fonts ++ display v ++ rest) acc = lines_loop md d r rest acc.
Proof.
  intros Hv Hf HPf HP HS HB. destruct (display_token v rest HP HS HB) as [HK HD].
  assert (forall a f, (List.length fonts < f)%nat ->
     skip_fonts md f (mkMS (a ++ written fonts ++ display v ++ rest) (len a))
     = Val (Some (Ok v), mkMS ((a ++ written fonts ++ display v) ++ rest) (len (a ++ written fonts ++ display v)))) as SK.
  { clear acc r. induction fonts as [|x fonts IH]; intros a f Hlen.
    - destruct f; [cbn in Hlen; lia|]. cbn [skip_fonts]. rewrite written_nil. cbn [app].
      rewrite (read_token md a _ rest _ HK HD). cbn [bind]. rewrite <- app_assoc. destruct v; try reflexivity. discriminate Hv.
    - inversion Hf; subst. inversion HPf; subst. destruct f; [cbn in Hlen; lia|]. cbn [skip_fonts].
      change (x :: fonts) with ([x] ++ fonts). rewrite written_app, written_one, <- !app_assoc.
      destruct (display_token x (written fonts ++ display v ++ rest)) as [HKx HDx]; auto.
      { destruct x; try discriminate; exact I. } { intros t ->. discriminate. }
      rewrite (read_token md a _ _ _ HKx HDx). cbn [bind]. destruct x; try discriminate.
      specialize (IH ltac:(assumption) ltac:(assumption) (a ++ display (VFont f0)) f ltac:(cbn in Hlen; lia)).
      rewrite <- !app_assoc in IH. rewrite IH. rewrite <- ?app_assoc. reflexivity. }
  assert (List.length fonts <= List.length (written fonts))%nat as Hlen.
  { clear - HPf Hf. induction fonts as [|x fonts IH]; [reflexivity|]. inversion Hf; subst. inversion HPf; subst.
    change (x :: fonts) with ([x] ++ fonts). rewrite written_app, written_one, !app_length. cbn [List.length].
    assert (display x <> []).
    { match goal with H : is_font x = true |- _ => destruct x; try discriminate H end.
      match goal with |- context [VFont ?o] => destruct o as [[? [?|]]|] end; discriminate. }
    destruct (display x); [congruence|]. cbn [List.length]. specialize (IH ltac:(assumption) ltac:(assumption)). lia. }
  cbn [lines_loop bind].
  assert (skip_fonts md (S (List.length (written fonts ++ display v ++ rest))) (ms_new (written fonts ++ display v ++ rest))
     = Val (Some (Ok v), mkMS ((written fonts ++ display v) ++ rest) (len (written fonts ++ display v)))) as ->.
  { apply (SK []). rewrite app_length. lia. }
  destruct v; cbn [bind]; try discriminate Hv;
    (match goal with |- context [value_eq_dec ?a ?b] => destruct (value_eq_dec a b) as [_|N]; [|congruence] end;
     rewrite split_here; reflexivity).
Qed.

Lemma match_values md d vs : forall r rest acc, Forall Parsable vs -> Forall small_hex vs ->
  (forall x t u y, without_fonts vs = x ++ VText t :: VText u :: y -> ~ (plain t /\ plain u)) ->
  ((exists t, In (VText t) vs) -> at_boundary rest) ->
  lines_loop md d (map Val (map (fun v => Ok (PVal v)) vs ++ r)) (written (without_fonts vs) ++ rest) acc
  = lines_loop md d (map Val r) rest acc.
Proof.
  induction vs as [|v vs IH]; intros r rest acc HP HS HA HB; [reflexivity|].
  inversion HP as [|? ? Hp HPs]; subst. inversion HS as [|? ? Hs HSs]; subst.
  cbn [map app]. destruct (is_font v) eqn:Ev.
  - assert (without_fonts (v :: vs) = without_fonts vs) as E. { unfold without_fonts. cbn [filter]. now rewrite Ev. }
    rewrite E in *. destruct v; try discriminate. cbn [lines_loop bind]. apply IH; auto.
    intros (t & It). apply HB. exists t. now right.
  - assert (without_fonts (v :: vs) = [v] ++ without_fonts vs) as E. { unfold without_fonts. cbn [filter]. now rewrite Ev. }
    rewrite E in *. rewrite written_app, written_one, <- app_assoc.
    rewrite <- (IH r rest acc HPs HSs).
    + apply (match_value md d v _ []); auto. intros t -> Ht.
      destruct (without_fonts vs) as [|u us] eqn:EW.
      * rewrite written_nil. apply HB. exists t. now left.
      * change (u :: us) with ([u] ++ us). rewrite written_app, written_one, <- app_assoc.
        assert (In u vs) as Iu. { assert (In u (u :: us)) as Iu by now left. rewrite <- EW in Iu. apply filter_In in Iu. tauto. }
        rewrite Forall_forall in HPs, HSs. apply display_starts; auto. intros w -> Hw.
        apply (HA [] t w us); auto.
    + intros x t u y E2. apply (HA (v :: x) t u y). cbn [app]. now rewrite E2.
    + intros (t & It). apply HB. exists t. now right.
Qed.

Lemma end_open d a s : area_good d a -> Forall Parsable (end_values a) -> (ar_end a = None -> s = []) ->
  at_open_or_end (written (end_values a) ++ s).
Proof.
  intros (_ & _ & H) HP HN. unfold end_values in *. destruct (ar_end a) as [v|].
  - rewrite written_one. specialize (H v eq_refl). inversion HP as [|? ? Hp _]; subst.
    destruct Hp as [| |t Hn Hpl Hc|b v Hpl HD]; try destruct H.
    destruct (display_tag b v Hpl HD) as (b' & _ & -> & _). { destruct v; try destruct H; exact I. }
    right. eexists. reflexivity.
  - left. rewrite HN by auto. reflexivity.
Qed.

Lemma font_open f s : Parsable (VFont f) -> at_open_or_end (written [VFont f] ++ s).
Proof.
  intros HP. rewrite written_one. inversion HP as [| | |b v Hpl HD]; subst.
  destruct (display_tag b _ Hpl HD I) as (b' & _ & -> & _). right. eexists. reflexivity.
Qed.

Lemma end_stops d a s : area_good d a -> Forall Parsable (end_values a) -> (ar_end a = None -> s = []) ->
  stops (written (end_values a) ++ s).
Proof.
  intros (_ & _ & H) HP HN. unfold end_values in *. destruct (ar_end a) as [v|].
  - rewrite written_one. specialize (H v eq_refl). inversion HP as [|? ? Hp _]; subst. right.
    destruct (display_token v s Hp) as [HK HD].
    { destruct v; try destruct H; exact I. } { intros t ->. destruct H. }
    exists (display v), s, v. splits; auto; destruct v; try destruct H; try discriminate; intros [].
  - left. rewrite HN by auto. reflexivity.
Qed.

(** ** Areas *)

Fixpoint chained (l : list Area) : Prop :=
  match l with [] => True | a :: l => (ar_end a = None -> l = []) /\ chained l end.

Lemma areas_chained d r n vs l : Areas d r n vs l -> chained l.
Proof.
  induction 1; cbn [chained ar_end]; splits; auto; discriminate.
Qed.

Lemma TotalRoom_nonneg d l n : TotalRoom d l n -> 0 <= n.
Proof. induction 1 as [| |a l k n F R H IH]; auto; [lia|]. apply Room_nonneg in R. lia. Qed.

Lemma last_font_in vs : Forall Parsable vs -> Forall Parsable (last_font vs) /\ Forall (fun f => is_font f = true) (last_font vs).
Proof.
  intros H. destruct (last_font_cases vs) as [[-> _]|(x & f & y & E & ->)]; [split; constructor|].
  rewrite E in H. apply Forall_app in H as [_ H]. inversion H; subst. repeat constructor; auto.
Qed.

Lemma lines_areas md d l : Built d -> Lists d TNp -> forall since lines s acc, Filled d since l lines s ->
  Forall (area_good d) l -> chained l -> Forall Parsable since ->
  Forall (fun a => Forall Parsable (ar_values a ++ end_values a) /\ Forall small_hex (ar_values a ++ end_values a)) l ->
  TextsApart l -> Forall LineText lines -> TotalRoom d l (Z.of_nat (List.length lines)) ->
  lines_loop md d (map Val (flat_map (area_items d) l)) s acc = Val (acc ++ lines).
Proof.
  intros HB HNP. induction l as [|a l IH]; intros since lines s acc HF HG HC HPs HV HA HL HT.
  - inversion HF; subst. inversion HT. destruct lines; [|cbn in *; lia]. cbn. now rewrite app_nil_r.
  - inversion HG as [|? ? Ga HG']; subst. inversion HV as [|? ? [Pa Sa] HV']; subst. destruct HC as [Cend HC].
    assert (TextsApart l) as HA' by (intros b I; apply HA; now right).
    apply Forall_app in Pa as [Pa Pe]. apply Forall_app in Sa as [Sa Se].
    (* the end of the area *)
    assert (forall fonts s acc, Forall Parsable fonts -> Forall (fun f => is_font f = true) fonts ->
      (ar_end a = None -> l = []) ->
      lines_loop md d (map Val (match ar_end a with Some v => [Ok (PVal v)]
         | None => if supp d VNewPage then [] else [Err (SUnsupportedTag (display VNewPage))] end ++ flat_map (area_items d) l))
         (written (fonts ++ end_values a) ++ s) acc
      = lines_loop md d (map Val (flat_map (area_items d) l)) s acc) as EE.
    { intros fonts s0 acc0 HPf Hf HN. unfold end_values in *. destruct (ar_end a) as [v|] eqn:EA.
      - cbn [app map]. rewrite written_app, written_one, <- app_assoc.
        destruct Ga as (_ & _ & Hst). specialize (Hst v EA).
        inversion Pe; subst. inversion Se; subst.
        apply match_value; auto; [destruct v; try destruct Hst; auto|intros t ->; destruct Hst].
      - apply lists_np in HNP. rewrite HNP. cbn [app]. rewrite (HN eq_refl). reflexivity. }
    cbn [flat_map]. unfold area_items at 1. rewrite <- !app_assoc.
    inversion HF as [|? ? ? ? s' NF HF'|? ? ? n used rest t s' F R U1 U2 HI HF']; subst.
    + assert (fillableb d a = false) as -> by now apply fillableb_false. cbn [app].
      assert (ar_end a = None -> s' = []) as HN.
      { intros E. rewrite (Cend E) in HF'. now inversion HF'. }
      rewrite written_app, <- app_assoc. rewrite match_values; auto.
      2:{ intros. eapply HA; [now left|eauto]. }
      2:{ intros _. destruct (end_open d a s' Ga Pe HN) as [->|(r & ->)]; [now left|]. right. exists 91, r. split; auto. now left. }
      rewrite <- (app_nil_l (end_values a)). rewrite (EE [] s' acc); auto. eapply IH; eauto.
      * apply Forall_app. auto.
      * inversion HT; subst; auto. contradiction.
    + assert (fillableb d a = true) as -> by now apply fillableb_iff. cbn [app].
      assert (ar_end a = None -> s' = []) as HN.
      { intros E. rewrite (Cend E) in HF'. now inversion HF'. }
      apply Forall_app in HL as [HLu HLr].
      inversion HT as [| |? ? k N F' R' HT' E1 E2]; subst; [contradiction|].
      assert (k = n) as -> by (eapply RectLines_fun; eauto).
      pose proof (TotalRoom_nonneg _ _ _ HT') as HN0.
      match goal with E : _ + _ = Z.of_nat (List.length (_ ++ _)) |- _ => rewrite app_length in E; rename E into E3 end.
      assert (Z.of_nat (List.length used) = n /\ N = Z.of_nat (List.length rest)) as [En ->].
      { destruct U2 as [U2| ->]; [lia|]. cbn [List.length] in *. lia. }
      destruct (last_font_in (since ++ ar_values a)) as [PF FF]. { apply Forall_app; auto. }
      rewrite match_values; auto.
      2:{ intros. eapply HA; [now left|eauto]. }
      2:{ intros (u & Iu). exfalso. destruct F as [F _]. apply (F (VText u) Iu). exact I. }
      assert (at_open_or_end (written (last_font (since ++ ar_values a) ++ end_values a) ++ s')
              /\ stops (written (last_font (since ++ ar_values a) ++ end_values a) ++ s')) as [HO HS].
      { destruct (last_font_cases (since ++ ar_values a)) as [[-> _]|(x & f & y & _ & Ef)].
        - split; [now apply (end_open d)|now apply (end_stops d)].
        - rewrite Ef in *. inversion PF as [|? ? Pf _]; subst. rewrite written_app, <- app_assoc. split; [now apply font_open|].
          rewrite written_one. right.
          destruct (display_token (VFont f) (written (end_values a) ++ s') Pf I) as [HK HD]; [discriminate|].
          exists (display (VFont f)), (written (end_values a) ++ s'), (VFont f). splits; auto; try discriminate; intros []. }
      destruct (scan_rect md used t _ acc HI HLu HO HS) as (ls & m & b & Esc & Epad).
      cbn [map lines_loop bind].
      edestruct (area_room d a HB Ga) as (k & Ek & Rk); [eassumption|].
      assert (k = n) as -> by (eapply RectLines_fun; eauto). rewrite Ek. cbn [bind].
      set (rest' := written (last_font (since ++ ar_values a) ++ end_values a) ++ s') in *.
      change (ms_split (ms_new (t ++ rest'))) with (ms_split (mkMS ([] ++ (t ++ rest')) (len []))). rewrite split_here. cbn [bind].
      rewrite <- En. rewrite Esc. cbn [bind]. rewrite Epad. unfold rest'. rewrite EE by auto.
      rewrite (app_assoc acc used rest). apply (IH []); auto.
Qed.

Lemma areas_forall d r n vs l (P : Value -> Prop) : Areas d r n vs l -> Forall P vs ->
  Forall (fun a => Forall P (ar_values a ++ end_values a)) l.
Proof.
  intros HA H. rewrite <- (areas_values d r n vs l HA) in H. clear HA. induction l as [|a l IH]; [constructor|].
  cbn [flat_map] in H. apply Forall_app in H as [H1 H2]. constructor; auto.
Qed.

Lemma pattern_lines md d ms vs l lines : Built d -> ~ Endless d (default_font (d_multi_cfg d)) ->
  Meaning ms (map Ok vs) -> Forall (Supports d) vs -> Lists d TNp -> PatternAreas d vs l ->
  Forall small_hex vs -> TextsApart l -> Forall LineText lines -> TotalRoom d l (Z.of_nat (List.length lines)) ->
  exists s, pat_fill md d ms lines = Val s /\ pat_lines md d ms s = Val lines.
Proof.
  intros HB Hd HM HS HNP HA HX HT HL HR. destruct (pattern_fill md d ms vs l lines HB Hd HM HS HNP HA) as (s & HF & E).
  exists s. split; auto. pose proof (Meaning_oks_ok _ _ HM) as HV.
  pose proof (areas_good d _ _ _ _ HB Hd HA HV (u16_sign d HB) Hd) as HG.
  pose proof (oks_Parsable _ _ HM) as HP. rewrite oks_map_Ok in HP.
  unfold pat_lines. rewrite (pat_items_val md d ms _ HM), (plist_areas d _ _ _ _ HA HS HV).
  apply (lines_areas md d l HB HNP [] lines s []); auto.
  - now apply areas_chained in HA.
  - apply Forall_and; eapply areas_forall; eauto.
Qed.
