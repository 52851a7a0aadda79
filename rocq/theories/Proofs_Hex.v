(** Strings printed with hexadecimal characters of any code: what they mean, and
    when normalizing is idempotent and well formed. *)

From Coq Require Import String ZifyBool ZifyNat.
From Verif Require Import Base Str Multi Spec_Multi Proofs_Str Proofs_Split Proofs_Parse Proofs_Tag
  Proofs_Print Proofs_Norm.
Ltac Zify.zify_post_hook ::= Z.div_mod_to_equations.
Open Scope list_scope.

Definition reread (v : Value) : result Value SyntaxError :=
  match v with
  | VHexadecimalCharacter c =>
      if c <? 10000 then Ok (VHexadecimalCharacter (decimal_as_hex c))
      else Err (SUnsupportedTagValue (104 :: 99 :: show c))
  | _ => Ok v
  end.

Lemma reread_spec v : Reread v (reread v).
Proof.
  destruct v; try (now constructor; intros ? ?). cbn. destruct (Z.ltb_spec c 10000); now constructor.
Qed.

Lemma reread_other v : (forall c, v <> VHexadecimalCharacter c) -> reread v = Ok v.
Proof. destruct v; auto. intros H. now destruct (H c). Qed.

Lemma decimal_as_hex_small c : 0 <= c < 10000 -> c <= decimal_as_hex c < 65536.
Proof. unfold decimal_as_hex. lia. Qed.
Lemma decimal_as_hex_big c : 10000 <= c -> 65536 <= decimal_as_hex c.
Proof. unfold decimal_as_hex. lia. Qed.
Lemma decimal_as_hex_grows c : 10 <= c -> c < 10000 -> c < decimal_as_hex c.
Proof. unfold decimal_as_hex. lia. Qed.
Lemma decimal_as_hex_mono a b : 0 <= a < b -> b < 100000 -> decimal_as_hex a < decimal_as_hex b.
Proof. unfold decimal_as_hex. lia. Qed.
Lemma decimal_as_hex_step n d : 0 <= n < 10000 -> 0 <= d < 10 ->
  decimal_as_hex (n * 10 + d) = decimal_as_hex n * 16 + d.
Proof. unfold decimal_as_hex. intros. lia. Qed.

Lemma Digits_decimal_as_hex s n : Digits 10 s n -> n < 100000 -> Digits 16 s (decimal_as_hex n).
Proof.
  induction 1 as [c d H|s n c d Hs IH H]; intros Hn.
  - assert (E : decimal_as_hex d = d).
    { apply DigitVal_nonneg in H as H'. unfold decimal_as_hex. lia. }
    rewrite E. constructor. unfold DigitVal in *. lia.
  - apply DigitVal_nonneg in H as H'. assert (0 <= n) by (eapply Digits_nonneg; [|eassumption]; lia).
    rewrite decimal_as_hex_step by lia. constructor; [apply IH; lia|]. unfold DigitVal in *. lia.
Qed.

Lemma Digits_det radix s n m : Digits radix s n -> Digits radix s m -> n = m.
Proof.
  intros H. apply Digits_Reads in H. intros H'. apply Digits_Reads in H'. revert m H'.
  induction H as [|a c d s n Hd H IH]; intros m H'; inv H'; auto.
  match goal with A : DigitVal _ _ _, B : DigitVal _ _ _ |- _ => pose proof (DigitVal_fun _ _ _ _ A B) end.
  subst. auto.
Qed.

Lemma display_hex c : 0 <= c < 65536 ->
  plain (104 :: 99 :: show c)
  /\ display (VHexadecimalCharacter c) = 91 :: (104 :: 99 :: show c) ++ [93]
  /\ parse_tag (104 :: 99 :: show c) = Val (reread (VHexadecimalCharacter c)).
Proof.
  intros Hc. destruct (show_spec c) as [HD HF]; [lia|].
  assert (P : plain (show c)) by (apply show_plain; lia).
  split; [apply plain_intro; splits; try lia; apply plain_intro; splits; auto; lia|].
  split; [reflexivity|].
  change (104 :: 99 :: show c) with ([104; 99] ++ show c).
  rewrite disp_hc by (repeat constructor).
  unfold ok_or_value, parse_hexadecimal_character. cbn [app].
  rewrite slice_from_2 by lia. cbn [bind].
  assert (HX : Digits 16 (show c) (decimal_as_hex c)) by (apply Digits_decimal_as_hex; auto; lia).
  destruct (parse_hex16 (show c)) as [d|] eqn:E.
  - apply parse_hex16_iff in E as [[E|(s' & E & _)] Hd].
    + pose proof (Digits_det _ _ _ _ E HX) as ->. cbn [reread].
      destruct (Z.ltb_spec c 10000); [reflexivity|].
      pose proof (decimal_as_hex_big c). lia.
    + rewrite E in HF. inv HF. lia.
  - cbn [reread]. destruct (Z.ltb_spec c 10000); [|reflexivity].
    assert (parse_hex16 (show c) = Some (decimal_as_hex c)); [|congruence].
    apply parse_hex16_iff. split; [now left|]. apply decimal_as_hex_small. lia.
Qed.

(** The token of a tag value other than text. *)
Lemma display_reread v b : plain b -> TagDenotes b v ->
  exists b', plain b' /\ display v = 91 :: b' ++ [93] /\ TokenDenotes (91 :: b' ++ [93]) (reread v).
Proof.
  intros Hb HT.
  destruct (match v with VHexadecimalCharacter _ => true | _ => false end) eqn:Ev.
  - destruct v; try discriminate. pose proof (TagDenotes_ok _ _ HT) as Hv. cbn in Hv. unfold u16 in Hv.
    destruct (display_hex c) as (P & E & R); [lia|]. exists (104 :: 99 :: show c). split; auto.
    split; auto. eapply (try_Token _ []); [now constructor|]. now rewrite try_from_tag.
  - destruct (display_tag _ _ Hb HT) as (b' & P & E & D); [destruct v; try discriminate; exact I|].
    exists b'. split; auto. split; auto. rewrite reread_other by (intros ? ->; discriminate).
    now constructor.
Qed.

Lemma reread_head t v : TokenDenotes t (reread v) ->
  (v = VText t /\ t <> [] /\ plain t /\ Forall text_char t)
  \/ ((exists c r, t = c :: r /\ bracket c) /\ forall u, v = VText u -> plain_text u = false).
Proof.
  intros H. destruct (match v with VHexadecimalCharacter _ => true | _ => false end) eqn:Ev.
  - destruct v; try discriminate. right. split; [|discriminate].
    cbn [reread] in H. destruct (c <? 10000).
    + apply TokenDenotes_head in H as [(? & _)|[H _]]; [discriminate|exact H].
    + inv H; eexists; eexists; (split; [reflexivity|now left]).
  - rewrite reread_other in H by (intros ? ->; discriminate). now apply TokenDenotes_head.
Qed.

Lemma printed_reread vs : Forall Parsable vs -> Meaning (printed vs) (map reread (merge vs)).
Proof.
  induction vs as [|v vs IH]; intros HP.
  - exists []. split; constructor.
  - inversion HP as [|? ? Hv HPs]; subst.
    specialize (IH HPs). unfold printed in *. cbn [map concat].
    set (rest := concat (map display vs)) in *. clearbody rest.
    destruct IH as (ts & HT & HD).
    destruct Hv as [| |t Hn Hp Ht|b v Hb HTD].
    + exists ([91; 91] :: ts). split; [apply (Tks_cons [91; 91]); [constructor|auto]|].
      rewrite merge_text_other by reflexivity. cbn [map]. constructor; auto. constructor.
    + exists ([93; 93] :: ts). split; [apply (Tks_cons [93; 93]); [constructor|auto]|].
      rewrite merge_text_other by reflexivity. cbn [map]. constructor; auto. constructor.
    + rewrite display_text by auto.
      destruct HT as [|t1 rest ts HT1 HT].
      * inversion HD as [E|]. destruct (merge vs) eqn:EM; [|discriminate].
        rewrite merge_text_other by (rewrite EM; discriminate). rewrite EM. cbn [map].
        exists [t]. rewrite app_nil_r. split.
        -- apply Tokens_one; auto. apply Tk_text; auto. now left.
        -- constructor; [now apply Tn_text|constructor].
      * destruct (merge vs) as [|v1 l] eqn:EM; cbn [map] in HD; inversion HD as [|? ? ? ? HD1 HDs]; subst.
        destruct (reread_head _ _ HD1) as [(-> & Hn1 & Hp1 & Ht1)|[(c & r & -> & Hc) Hu]].
        -- erewrite merge_text_join by
             (eauto; now rewrite (proj2 (plain_text_iff t) Hp), (proj2 (plain_text_iff t1) Hp1)).
           cbn [map].
           exists ((t ++ t1) :: ts). split.
           ++ rewrite app_assoc. apply Tks_cons; auto. apply Tk_text.
              ** destruct t; [congruence|discriminate].
              ** now apply plain_app.
              ** remember t1 as t2 eqn:Et2. destruct HT1; subst; auto;
                   try (inv Hp1; lia).
           ++ constructor; auto. apply Tn_text.
              ** destruct t; [congruence|discriminate].
              ** now apply plain_app.
              ** now apply Forall_app.
        -- rewrite merge_text_other.
           2: { intros u l' E. rewrite EM in E. injection E as -> ->. rewrite (Hu u eq_refl).
                apply andb_false_r. }
           rewrite EM. cbn [map]. exists (t :: (c :: r) :: ts). split.
           ++ apply Tks_cons; [|now apply Tks_cons]. apply Tk_text; auto. right. eexists. eexists.
              split; [reflexivity|auto].
           ++ constructor; auto. now apply Tn_text.
    + rewrite merge_tag by (destruct v; auto; apply TagDenotes_not_text in HTD; contradiction).
      destruct (display_reread _ _ Hb HTD) as (b' & P & -> & D).
      exists ((91 :: b' ++ [93]) :: ts). split.
      * apply Tks_cons; auto. now constructor.
      * cbn [map]. constructor; auto.
Qed.

Lemma normalize_reread md ms rs s : Meaning ms rs -> normalize md ms = Val s ->
  Meaning s (map reread (merge (nvals (oks rs)))).
Proof.
  intros HM E. rewrite (normalize_val _ _ _ HM) in E. injection E as <-.
  apply printed_reread. apply nvals_Forall. eapply oks_Parsable, HM.
Qed.

(** ** The hexadecimal characters of a message *)

Fixpoint hexes (vs : list Value) : list Z :=
  match vs with
  | [] => []
  | VHexadecimalCharacter c :: r => c :: hexes r
  | _ :: r => hexes r
  end.

Lemma hexes_app a b : hexes (a ++ b) = hexes a ++ hexes b.
Proof. induction a as [|v a IH]; [reflexivity|]. destruct v; cbn [hexes app]; rewrite ?IH; reflexivity. Qed.

Lemma hexes_dedup vs : forall s, hexes (dedup s vs) = hexes vs.
Proof.
  induction vs as [|v vs IH]; intros s; [reflexivity|]. cbn [dedup].
  destruct (redundantb s v) eqn:E.
  - destruct v; try discriminate; cbn [hexes]; apply IH.
  - destruct v; cbn [hexes]; rewrite IH; reflexivity.
Qed.

Lemma hexes_blank vs : Forall (fun v => value_is_blank v = true) vs -> hexes vs = [].
Proof. induction 1 as [|v vs H _ IH]; [reflexivity|]. destruct v; cbn in *; auto; discriminate. Qed.

Lemma hexes_nvals vs : hexes (nvals vs) = hexes vs.
Proof.
  unfold nvals. rewrite <- (hexes_dedup vs settings0).
  destruct (strip_split (dedup settings0 vs)) as (tl & E & Hb).
  rewrite E at 2. rewrite hexes_app, (hexes_blank tl), app_nil_r by auto. reflexivity.
Qed.

Lemma hexes_merge vs : hexes (merge vs) = hexes vs.
Proof.
  induction vs as [|v vs IH]; [reflexivity|].
  destruct (is_text v) eqn:E; [|rewrite merge_tag by auto; destruct v; cbn [hexes]; congruence].
  destruct v; try discriminate. cbn [merge hexes]. rewrite <- IH.
  destruct (merge vs) as [|v1 l]; [reflexivity|]. destruct v1; try reflexivity.
  destruct (plain_text t && plain_text t0); reflexivity.
Qed.

Lemma hexes_iff vs c : In c (hexes vs) <-> In (VHexadecimalCharacter c) vs.
Proof.
  induction vs as [|v vs IH]; [reflexivity|].
  destruct v; cbn [hexes In]; rewrite IH;
    try (split; [intros H; right; exact H|intros [H|H]; [discriminate H|exact H]]).
  split; intros [H|H]; [left; congruence|right; auto|left; congruence|right; auto].
Qed.

(** What stands at the hexadecimal tags of printed values. *)
Fixpoint rcodes (rs : list (result Value SyntaxError)) : list (option Z) :=
  match rs with
  | [] => []
  | Ok (VHexadecimalCharacter c) :: r => Some c :: rcodes r
  | Err _ :: r => None :: rcodes r
  | _ :: r => rcodes r
  end.

Lemma rcodes_reread vs : rcodes (map reread vs) =
  map (fun c => if c <? 10000 then Some (decimal_as_hex c) else None) (hexes vs).
Proof.
  induction vs as [|v vs IH]; [reflexivity|].
  destruct v; cbn [map reread rcodes hexes]; auto.
  destruct (c <? 10000); cbn [rcodes]; now rewrite IH.
Qed.

Lemma hexes_oks rs : map Some (hexes (oks rs)) = filter (fun o => match o with Some _ => true | None => false end) (rcodes rs).
Proof.
  induction rs as [|[v|e] rs IH]; [reflexivity| |exact IH].
  destruct v; cbn [oks hexes rcodes filter map]; auto. now rewrite IH.
Qed.

Lemma Forall_hexes (P : Z -> Prop) vs :
  Forall P (hexes vs) <-> Forall (fun v => match v with VHexadecimalCharacter c => P c | _ => True end) vs.
Proof.
  induction vs as [|v vs IH]; [split; constructor|].
  destruct v; cbn [hexes]; rewrite ?Forall_cons_iff, IH; tauto.
Qed.

Lemma hexes_range ms rs : Meaning ms rs -> Forall (fun c => 0 <= c < 65536) (hexes (oks rs)).
Proof.
  intros H. apply Forall_hexes. eapply Forall_impl; [|eapply oks_Parsable, H].
  intros v Hv. apply Parsable_ok in Hv. destruct v; auto.
Qed.

(** ** C08 *)

Lemma normalize_well_formed_iff md ms rs s : Meaning ms rs -> normalize md ms = Val s ->
  (exists vs, Meaning s (map Ok vs)) <-> Forall printable_hex (oks rs).
Proof.
  intros HM E. pose proof (normalize_reread _ _ _ _ HM E) as HS.
  set (w := merge (nvals (oks rs))) in *.
  assert (EH : hexes w = hexes (oks rs)) by (unfold w; now rewrite hexes_merge, hexes_nvals).
  unfold printable_hex. rewrite <- (Forall_hexes (fun c => c < 10000)), <- EH. split.
  - intros (vs & HV). pose proof (Meaning_fun _ _ _ HS HV) as EM.
    assert (F : ~ In None (rcodes (map reread w))).
    { rewrite EM. clear. induction vs as [|v vs IH]; [auto|].
      destruct v; cbn [map rcodes In]; auto. intros [H|H]; [discriminate|auto]. }
    rewrite rcodes_reread in F. apply Forall_forall. intros c Hc.
    destruct (Z.ltb_spec c 10000); auto. destruct F. apply in_map_iff. exists c.
    split; auto. destruct (Z.ltb_spec c 10000); [lia|reflexivity].
  - intros F. rewrite Forall_hexes in F.
    exists (map (fun v => match v with
      VHexadecimalCharacter c => VHexadecimalCharacter (decimal_as_hex c) | _ => v end) w).
    replace (map Ok _) with (map reread w); [exact HS|]. rewrite map_map.
    apply map_ext_in. intros v Hv. rewrite Forall_forall in F. specialize (F v Hv).
    destruct v; auto. cbn [reread]. destruct (Z.ltb_spec c 10000); [reflexivity|lia].
Qed.

(** ** C07 *)

Lemma filter_map_some (l : list Z) (f : Z -> Z) (p : Z -> bool) :
  filter (fun o : option Z => match o with Some _ => true | None => false end)
    (map (fun c => if p c then Some (f c) else None) l) = map (fun c => Some (f c)) (filter p l).
Proof. induction l as [|c l IH]; [reflexivity|]. cbn. destruct (p c); cbn; now rewrite IH. Qed.

Lemma filter_length_le {A} (p : A -> bool) l : (List.length (filter p l) <= List.length l)%nat.
Proof. induction l as [|a l IH]; cbn; [lia|]. destruct (p a); cbn; lia. Qed.

Lemma filter_length_eq {A} (p : A -> bool) l :
  List.length (filter p l) = List.length l -> filter p l = l.
Proof.
  induction l as [|a l IH]; [reflexivity|]. cbn [filter]. destruct (p a); cbn [List.length]; intros H.
  - f_equal. apply IH. lia.
  - pose proof (filter_length_le p l). lia.
Qed.

Lemma map_some_inj (a b : list Z) : map Some a = map Some b -> a = b.
Proof.
  revert b. induction a as [|x a IH]; intros [|y b] H; try discriminate; auto.
  injection H as -> H. f_equal. auto.
Qed.

Lemma normalize_idempotent_iff md ms rs s : Meaning ms rs -> normalize md ms = Val s ->
  normalize md s = Val s <-> Forall small_hex (oks rs).
Proof.
  intros HM E. split; [|intros; eapply normalize_idempotent; eauto].
  intros E2. pose proof (normalize_reread _ _ _ _ HM E) as HS.
  pose proof (normalize_reread _ _ _ _ HS E2) as HS2.
  pose proof (Meaning_fun _ _ _ HS HS2) as EM.
  assert (HC := f_equal rcodes EM). rewrite !rcodes_reread, !hexes_merge, !hexes_nvals in HC.
  set (h := hexes (oks rs)) in *.
  set (h2 := hexes (oks (map reread (merge (nvals (oks rs)))))) in *.
  assert (H2 : h2 = map decimal_as_hex (filter (fun c => c <? 10000) h)).
  { apply map_some_inj. unfold h2. rewrite hexes_oks, rcodes_reread, hexes_merge, hexes_nvals.
    fold h. rewrite (filter_map_some h decimal_as_hex (fun c => c <? 10000)). now rewrite map_map. }
  assert (HL : List.length h = List.length h2) by (apply (f_equal (@List.length _)) in HC; now rewrite !map_length in HC).
  assert (HF : filter (fun c => c <? 10000) h = h).
  { apply filter_length_eq. rewrite HL, H2, map_length. reflexivity. }
  rewrite HF in H2. rewrite H2 in HC.
  assert (R : Forall (fun c => 0 <= c < 65536) h) by (apply (hexes_range ms rs HM)).
  assert (B : Forall (fun c => c < 10000) h).
  { apply Forall_forall. intros c Hc. rewrite <- HF in Hc. apply filter_In in Hc as [_ Hc]. lia. }
  apply (Forall_hexes (fun c => c < 10)). fold h. clear - HC R B.
  induction h as [|c h IH]; [constructor|]. cbn [map] in HC. inv R. inv B.
  destruct (Z.ltb_spec c 10000) as [Hc|]; [|lia].
  assert (HC1 : decimal_as_hex c < 10000 /\ decimal_as_hex c = decimal_as_hex (decimal_as_hex c)).
  { destruct (Z.ltb_spec (decimal_as_hex c) 10000); injection HC as HC1 HC2; [split; auto|discriminate]. }
  constructor.
  - destruct HC1 as [Hd He]. destruct (Z_lt_le_dec c 10); auto.
    pose proof (decimal_as_hex_grows c). 
    pose proof (decimal_as_hex_mono c (decimal_as_hex c)). lia.
  - apply IH; auto. injection HC as _ HC. exact HC.
Qed.

(** ** C09, C10 *)

Lemma normalize_content_any md ms rs s : Meaning ms rs -> normalize md ms = Val s ->
  exists vs rs' tail, Forall2 Reread vs rs' /\ Meaning s rs'
    /\ content settings0 (oks rs) = content settings0 vs ++ tail
    /\ Forall (fun p => BlankItem (fst p)) tail.
Proof.
  intros HM E. set (w := merge (nvals (oks rs))).
  assert (HO : Forall value_ok (oks rs)).
  { eapply Forall_impl; [|eapply oks_Parsable, HM]. intros v. apply Parsable_ok. }
  destruct (strip_split (dedup settings0 (oks rs))) as (tl & Es & Hb).
  destruct (content_app (strip (dedup settings0 (oks rs))) settings0 tl) as (s' & Ec).
  exists w, (map reread w), (content s' tl). split.
  { clear. induction w; constructor; auto. apply reread_spec. }
  split; [exact (normalize_reread _ _ _ _ HM E)|]. split.
  - unfold w. rewrite content_merge. unfold nvals. rewrite <- Ec, <- Es. now rewrite content_dedup.
  - apply content_blank; auto. apply Forall_forall. intros v Hv. rewrite Forall_forall in HO. apply HO.
    apply (dedup_incl settings0). rewrite Es. apply in_or_app. now right.
Qed.

Lemma NoRedundant_reread vs : forall s, NoRedundant s vs -> NoRedundant s (oks (map reread vs)).
Proof.
  induction vs as [|v vs IH]; intros s H; [exact I|]. destruct H as [H1 H2]. cbn [map].
  destruct (match v with VHexadecimalCharacter _ => true | _ => false end) eqn:Ev.
  - destruct v; try discriminate. cbn [reread]. destruct (c <? 10000); cbn [oks]; auto.
    split; [intros [H _]; discriminate|]. auto.
  - rewrite reread_other by (intros ? ->; discriminate). cbn [oks]. split; auto.
Qed.

Lemma normalize_ends_any md ms rs s : Meaning ms rs -> normalize md ms = Val s ->
  exists rs', Meaning s rs' /\ NoRedundant settings0 (oks rs')
    /\ (rs' = [] \/ exists l r, rs' = l ++ [r]
        /\ match r with
           | Ok v => Shown v
           | Err _ => exists c, In (VHexadecimalCharacter c) (oks rs) /\ 10000 <= c
           end).
Proof.
  intros HM E. exists (map reread (merge (nvals (oks rs)))).
  split; [exact (normalize_reread _ _ _ _ HM E)|].
  split; [apply NoRedundant_reread, merge_NoRedundant, nvals_NoRedundant|].
  destruct (merge_ends _ (nvals_ends (oks rs))) as [E0|(l & v & E1 & Hv)].
  { left. now rewrite E0. }
  right. exists (map reread l), (reread v). rewrite E1, map_app. split; [reflexivity|].
  assert (HO : value_ok v).
  { assert (HV : exists vs, Forall value_ok vs /\ In v vs); [|destruct HV as (vs & F & I); rewrite Forall_forall in F; auto].
    exists (merge (nvals (oks rs))). split; [|rewrite E1; apply in_or_app; right; now left].
    assert (HN : Forall value_ok (nvals (oks rs))).
    { apply nvals_Forall. eapply Forall_impl; [|eapply oks_Parsable, HM]. intros x. apply Parsable_ok. }
    revert HN. generalize (nvals (oks rs)). clear. induction l as [|v l IH]; intros H; [constructor|].
    inv H. specialize (IH H3). destruct (is_text v) eqn:Et; [|rewrite merge_tag by auto; now constructor].
    destruct v; try discriminate. cbn [merge]. destruct (merge l) as [|v1 l1]; [now constructor|].
    destruct v1; try (now constructor). destruct (plain_text t && plain_text t0); [|now constructor].
    inv IH. constructor; auto. cbn in *. destruct H2, H1. split; [destruct t; [congruence|discriminate]|].
    now apply Forall_app. }
  destruct (match v with VHexadecimalCharacter _ => true | _ => false end) eqn:Ev.
  - destruct v; try discriminate. cbn [reread]. destruct (Z.ltb_spec c 10000); [constructor|].
    exists c. split; [|lia]. apply hexes_iff. rewrite <- hexes_nvals, <- hexes_merge, E1, hexes_app.
    apply in_or_app. right. now left.
  - rewrite reread_other by (intros ? ->; discriminate). now apply value_blank_iff.
Qed.
