(** Results of whole strings, [normalize], [is_blank] and text extraction. *)

From Coq Require Import String.
From Verif Require Import Base Str Multi Spec_Multi Proofs_Str Proofs_Split Proofs_Parse Proofs_Tag
  Proofs_Print.

(** ** Results of a string *)

Lemma TokenDenotes_try t res : TokenDenotes t res -> try_from t = Val res.
Proof.
  intros H. destruct H as [| |b v P D|b P K N S|b P K|b P| |t N P F|t N P F].
  - reflexivity.
  - reflexivity.
  - rewrite try_from_tag by auto. now apply parse_tag_ok.
  - rewrite try_from_tag by auto. now apply parse_tag_err_value.
  - rewrite try_from_tag by auto. now apply parse_tag_err_tag.
  - now apply try_from_unterminated.
  - reflexivity.
  - destruct (try_from_text t) as [[_ E]|[F' E]]; auto. contradiction.
  - destruct (try_from_text t) as [[F' E]|[_ E]]; auto. contradiction.
Qed.

Lemma PanicToken_try t : PanicToken t -> try_from t = Panic.
Proof. intros (b & Hb & -> & HS). rewrite try_from_tag by auto. now apply parse_tag_panic. Qed.

Lemma try_Token t rest res : Token t rest -> try_from t = Val res -> TokenDenotes t res.
Proof.
  intros Ht E. destruct (try_from_token t rest Ht) as [[_ E']|[_ (res' & E' & HD')]]; congruence.
Qed.

Lemma Tokens_Token s ts : Tokens s ts -> Forall (fun t => exists rest, Token t rest) ts.
Proof. induction 1; constructor; eauto. Qed.

Lemma map_Val_inj {A} (l l' : list A) : map Val l = map Val l' -> l = l'.
Proof.
  revert l'. induction l as [|x l IH]; intros [|y l'] H; try discriminate; auto.
  injection H as -> H. f_equal; auto.
Qed.

Lemma tokens_values ts rs :
  Forall (fun t => exists rest, Token t rest) ts ->
  map try_from ts = map Val rs <-> Forall2 TokenDenotes ts rs.
Proof.
  intros HT. split.
  - revert rs. induction HT as [|t ts (rest & Ht) HT IH]; intros [|r rs] H; try discriminate;
      constructor.
    + injection H as H _. eapply try_Token; eauto.
    + injection H as _ H. auto.
  - induction 1 as [|t r ts rs HD H IH]; cbn [map]; auto.
    inv HT. f_equal; auto. now apply TokenDenotes_try.
Qed.

Lemma values_meaning md ms rs : values md ms = map Val rs <-> Meaning ms rs.
Proof.
  destruct (Tokens_exists ms) as (ts & HT). rewrite (values_tokens md ms ts HT).
  rewrite tokens_values by (eapply Tokens_Token; eauto). split.
  - intros H. exists ts. auto.
  - intros (ts' & HT' & H). now rewrite (Tokens_unique _ _ _ HT HT').
Qed.

Lemma Meaning_fun ms rs rs' : Meaning ms rs -> Meaning ms rs' -> rs = rs'.
Proof.
  intros H H'. apply (values_meaning Debug) in H, H'. apply map_Val_inj. congruence.
Qed.

(** Either some token splits a character, or the string has a meaning. *)
Lemma meaning_or_panic ms ts : Tokens ms ts ->
  (Exists PanicToken ts /\ forall rs, ~ Meaning ms rs) \/ exists rs, Meaning ms rs.
Proof.
  intros HT. assert (H : Exists PanicToken ts \/ exists rs, map try_from ts = map Val rs).
  { assert (HTT := Tokens_Token _ _ HT). clear HT.
    induction HTT as [|t ts (rest & Ht) HTT IH]; [right; exists []; auto|].
    destruct (try_from_token t rest Ht) as [[HP _]|[_ (res & E & _)]]; [left; now constructor|].
    destruct IH as [IH|(rs & IH)]; [left; now constructor|].
    right. exists (res :: rs). cbn [map]. congruence. }
  destruct H as [H|(rs & H)].
  - left. split; auto. intros rs (ts' & HT' & HD).
    rewrite (Tokens_unique _ _ _ HT' HT) in HD. clear HT HT'.
    induction HD as [|t r ts rs HD HDs IH]; [inv H|].
    inv H; auto. apply TokenDenotes_try in HD. apply PanicToken_try in H1. congruence.
  - right. exists rs, ts. split; auto. apply tokens_values; auto. eapply Tokens_Token; eauto.
Qed.

Lemma meaning_panic ms ts : Tokens ms ts -> (exists rs, Meaning ms rs) <-> ~ Exists PanicToken ts.
Proof.
  intros HT. destruct (meaning_or_panic ms ts HT) as [[HE HN]|(rs & HM)].
  - split; [intros (rs & H)|]; [exfalso; eapply HN; eauto|contradiction].
  - split; eauto. intros _ HE. destruct HM as (ts' & HT' & HD).
    rewrite (Tokens_unique _ _ _ HT' HT) in HD. clear HT HT'.
    induction HD as [|t r ts rs HD HDs IH]; [inv HE|].
    inv HE; auto. apply TokenDenotes_try in HD.
    match goal with H : PanicToken _ |- _ => apply PanicToken_try in H end. congruence.
Qed.

(** Loops that read every item panic exactly when some item does. *)
Lemma norm_loop_total rs st : exists st', norm_loop (map Val rs) st = Val st'.
Proof.
  revert st. induction rs as [|[v|e] rs IH]; intros st; cbn [map norm_loop bind]; eauto.
Qed.

Lemma norm_loop_panic ts st : Forall (fun t => exists rest, Token t rest) ts ->
  Exists PanicToken ts -> norm_loop (map try_from ts) st = Panic.
Proof.
  intros HT HE. revert st HE. induction HT as [|t ts (rest & Ht) HT IH]; intros st HE; [inv HE|].
  cbn [map norm_loop]. destruct (try_from_token t rest Ht) as [[_ E]|[HN (res & E & _)]];
    rewrite E; cbn [bind]; auto.
  inv HE; [contradiction|]. destruct res; auto.
Qed.

Lemma spans_of_val rs : spans_of (map Val rs) = Val (texts rs).
Proof.
  induction rs as [|[v|e] rs IH]; cbn [map spans_of bind texts]; auto.
  destruct v; auto. rewrite IH. reflexivity.
Qed.

Lemma spans_of_panic ts : Forall (fun t => exists rest, Token t rest) ts ->
  Exists PanicToken ts -> spans_of (map try_from ts) = Panic.
Proof.
  intros HT HE. revert HE. induction HT as [|t ts (rest & Ht) HT IH]; intros HE; [inv HE|].
  cbn [map spans_of]. destruct (try_from_token t rest Ht) as [[_ E]|[HN (res & E & _)]];
    rewrite E; cbn [bind]; auto.
  inv HE; [contradiction|]. rewrite IH by auto. destruct res as [[]|]; auto.
Qed.

Lemma all_blank_panic ts : Forall (fun t => exists rest, Token t rest) ts ->
  all_blank (map try_from ts) <> Hang.
Proof.
  induction 1 as [|t ts (rest & Ht) HT IH]; cbn [map all_blank]; [discriminate|].
  destruct (try_from_token t rest Ht) as [[_ E]|[_ (res & E & _)]]; rewrite E; cbn [bind];
    [discriminate|]. destruct res as [v|]; [|discriminate]. destruct (value_is_blank v); auto. discriminate.
Qed.

Lemma normalize_panic md ms ts : Tokens ms ts ->
  (normalize md ms = Panic <-> Exists PanicToken ts) /\ normalize md ms <> Hang.
Proof.
  intros HT. unfold normalize. rewrite (values_tokens md ms ts HT).
  destruct (meaning_or_panic ms ts HT) as [[HE _]|(rs & HM)].
  - rewrite norm_loop_panic by (auto; eapply Tokens_Token; eauto). cbn. split; [tauto|discriminate].
  - assert (HN : ~ Exists PanicToken ts) by (eapply meaning_panic; eauto).
    destruct HM as (ts' & HT' & HD). rewrite (Tokens_unique _ _ _ HT' HT) in HD.
    apply tokens_values in HD; [|eapply Tokens_Token; eauto]. rewrite HD.
    edestruct norm_loop_total as (st' & E). rewrite E. cbn.
    split; [split; [discriminate|contradiction]|discriminate].
Qed.

Lemma text_spans_panic md ms ts : Tokens ms ts ->
  (text_spans md ms = Panic <-> Exists PanicToken ts) /\ text_spans md ms <> Hang.
Proof.
  intros HT. unfold text_spans. rewrite (values_tokens md ms ts HT).
  destruct (meaning_or_panic ms ts HT) as [[HE _]|(rs & HM)].
  - rewrite spans_of_panic by (auto; eapply Tokens_Token; eauto). cbn. split; [tauto|discriminate].
  - assert (HN : ~ Exists PanicToken ts) by (eapply meaning_panic; eauto).
    destruct HM as (ts' & HT' & HD). rewrite (Tokens_unique _ _ _ HT' HT) in HD.
    apply tokens_values in HD; [|eapply Tokens_Token; eauto]. rewrite HD.
    rewrite spans_of_val. split; [split; [discriminate|contradiction]|discriminate].
Qed.

Lemma join_text_panic md ms sep ts : Tokens ms ts ->
  (join_text md ms sep = Panic <-> Exists PanicToken ts) /\ join_text md ms sep <> Hang.
Proof.
  intros HT. unfold join_text. destruct (text_spans_panic md ms ts HT) as [<- H].
  destruct (text_spans md ms); cbn; split; [split| |split| |split|]; congruence.
Qed.

(** ** Blank values *)

Lemma is_whitespace_latin c : text_char c -> is_whitespace c = true <-> space c.
Proof. unfold text_char, is_whitespace, space. lia. Qed.

Lemma trim_start_nil s : trim_start s = [] <-> Forall (fun c => is_whitespace c = true) s.
Proof.
  induction s as [|c s IH]; cbn [trim_start]; [split; auto|].
  destruct (is_whitespace c) eqn:E.
  - rewrite IH. split; [constructor; auto|]. intros H. now inv H.
  - split; [discriminate|]. intros H. inv H. congruence.
Qed.

Lemma trim_start_suffix s : exists w, s = w ++ trim_start s /\ Forall (fun c => is_whitespace c = true) w.
Proof.
  induction s as [|c s IH]; cbn [trim_start]; [exists []; auto|].
  destruct (is_whitespace c) eqn:E; [|exists []; auto].
  destruct IH as (w & E' & H). exists (c :: w). split; [cbn; congruence|constructor; auto].
Qed.

Lemma trim_nil s : trim s = [] <-> Forall (fun c => is_whitespace c = true) s.
Proof.
  unfold trim. split.
  - intros H. assert (H' : trim_start (rev (trim_start s)) = []).
    { rewrite <- (rev_involutive (trim_start (rev _))). now rewrite H. }
    apply trim_start_nil in H'. apply Forall_rev in H'. rewrite rev_involutive in H'.
    destruct (trim_start_suffix s) as (w & -> & Hw). now apply Forall_app.
  - intros H. apply trim_start_nil in H. now rewrite H.
Qed.

Lemma value_blank_iff v : value_ok v -> value_is_blank v = false <-> Shown v.
Proof.
  intros Hok. destruct v; cbn [value_is_blank];
    try (split; [intros _; constructor|reflexivity]);
    try (split; [discriminate|intros H; inv H]).
  cbn in Hok. destruct Hok as [_ Ht]. unfold is_empty.
  assert (D : trim t = [] \/ trim t <> []) by (destruct (trim t); auto; right; discriminate).
  destruct D as [D|D].
  - rewrite D. split; [discriminate|]. intros H. inv H. apply trim_nil in D.
    rewrite Forall_forall in D, Ht. exfalso. match goal with HS : ~ space _ |- _ => apply HS end.
    apply is_whitespace_latin; auto.
  - assert (E : match trim t with [] => true | _ :: _ => false end = false) by (destruct (trim t); auto; congruence).
    rewrite E. split; auto. intros _.
    assert (HX : exists c, In c t /\ is_whitespace c = false).
    { rewrite trim_nil in D. clear - D. induction t as [|c t IH]; [exfalso; auto|].
      destruct (is_whitespace c) eqn:E; [|exists c; split; auto; now left].
      destruct IH as (c' & Hc & E'); [intros H; apply D; now constructor|].
      exists c'. split; auto. now right. }
    destruct HX as (c & Hc & E'). econstructor; eauto. intros Hs.
    rewrite Forall_forall in Ht. apply is_whitespace_latin in Hs; auto. congruence.
Qed.

(** ** What [normalize] keeps *)

Definition redundantb (s : Settings) (v : Value) : bool :=
  match v with
  | VColorForeground c => option_eqb color_eqb c (s_cf s)
  | VFont f => option_eqb font_eqb f (s_fo s)
  | VJustificationLine j => option_eqb jl_eqb j (s_jl s)
  | VJustificationPage j => option_eqb jp_eqb j (s_jp s)
  | _ => false
  end.

Fixpoint dedup (s : Settings) (vs : list Value) : list Value :=
  match vs with
  | [] => []
  | v :: r => let s' := apply_setting v s in
      if redundantb s v then dedup s' r else v :: dedup s' r
  end.

Fixpoint strip (vs : list Value) : list Value :=
  match vs with
  | [] => []
  | v :: r => match strip r with
      | [] => if value_is_blank v then [] else [v]
      | l => v :: l
      end
  end.

Definition printed (vs : list Value) : str := concat (map display vs).

Definition settings_of (st : NormState) : Settings :=
  mkSet (n_cf st) (n_fo st) (n_jl st) (n_jp st).

Lemma norm_step_eq v st : 
  norm_step v st =
  let s := apply_setting v (settings_of st) in
  if redundantb (settings_of st) v then
    mkNorm (n_norm st) (n_trail st) (s_cf s) (s_fo s) (s_jl s) (s_jp s)
  else if value_is_blank v then
    mkNorm (n_norm st) (n_trail st ++ display v) (s_cf s) (s_fo s) (s_jl s) (s_jp s)
  else mkNorm ((n_norm st ++ n_trail st) ++ display v) [] (s_cf s) (s_fo s) (s_jl s) (s_jp s).
Proof.
  destruct st as [no tr cf fo jl jp].
  destruct v; cbn [norm_step redundantb apply_setting settings_of n_norm n_trail n_cf n_fo n_jl n_jp
                   s_cf s_fo s_jl s_jp]; try reflexivity;
  cbv zeta; cbn [s_cf s_fo s_jl s_jp];
  match goal with |- context [negb ?b] => destruct b end; reflexivity.
Qed.

Lemma norm_loop_val rs : forall st, exists st',
  norm_loop (map Val rs) st = Val st' /\
  n_norm st' = match strip (dedup (settings_of st) (oks rs)) with
               | [] => n_norm st
               | l => n_norm st ++ n_trail st ++ printed l
               end.
Proof.
  induction rs as [|[v|e] rs IH]; intros st; cbn [map norm_loop bind oks].
  - eauto.
  - destruct (IH (norm_step v st)) as (st' & E & En). exists st'. split; auto.
    rewrite En. clear E En IH. rewrite norm_step_eq. cbv zeta.
    cbn [dedup]. cbv zeta. destruct (redundantb (settings_of st) v) eqn:ER.
    + cbn [settings_of n_norm n_trail n_cf n_fo n_jl n_jp s_cf s_fo s_jl s_jp].
      destruct (apply_setting v (settings_of st)); reflexivity.
    + destruct (value_is_blank v) eqn:EB;
        cbn [n_norm n_trail strip];
        rewrite EB; set (s' := apply_setting v (settings_of st));
        match goal with |- context [dedup (settings_of ?x)] =>
          replace (settings_of x) with s' by (unfold settings_of; cbn; destruct s'; reflexivity) end;
        destruct (strip (dedup s' (oks rs))); unfold printed; cbn [map concat];
        rewrite ?app_nil_r, <- ?app_assoc; try reflexivity.
  - apply IH.
Qed.

Definition nvals (vs : list Value) : list Value := strip (dedup settings0 vs).

Lemma normalize_val md ms rs : Meaning ms rs -> normalize md ms = Val (printed (nvals (oks rs))).
Proof.
  intros HM. apply (values_meaning md) in HM. unfold normalize. rewrite HM.
  destruct (norm_loop_val rs (mkNorm [] [] None None None None)) as (st' & E & En).
  rewrite E. cbn [bind]. rewrite En. unfold nvals. cbn [n_norm n_trail].
  change (settings_of (mkNorm [] [] None None None None)) with settings0.
  destruct (strip (dedup settings0 (oks rs))); reflexivity.
Qed.

Lemma normalize_val_inv md ms s : normalize md ms = Val s ->
  exists rs, Meaning ms rs /\ s = printed (nvals (oks rs)).
Proof.
  intros E. destruct (Tokens_exists ms) as (ts & HT).
  destruct (meaning_or_panic ms ts HT) as [[HE _]|(rs & HM)].
  - apply (normalize_panic md ms ts HT) in HE. congruence.
  - exists rs. split; auto. rewrite (normalize_val md ms rs HM) in E. congruence.
Qed.

Lemma oks_Parsable ms rs : Meaning ms rs -> Forall Parsable (oks rs).
Proof.
  intros (ts & _ & HD). induction HD as [|t [v|e] ts rs H _ IH]; cbn [oks]; auto.
  constructor; auto. eapply TokenDenotes_parsable; eauto.
Qed.

Lemma dedup_incl s vs v : In v (dedup s vs) -> In v vs.
Proof.
  revert s. induction vs as [|x vs IH]; intros s; cbn [dedup]; auto. cbv zeta.
  destruct (redundantb s x); cbn [In]; intros H; [right; eapply IH; eauto|].
  destruct H; eauto.
Qed.

Lemma strip_split vs : exists tl, vs = strip vs ++ tl /\ Forall (fun v => value_is_blank v = true) tl.
Proof.
  induction vs as [|v vs IH]; cbn [strip]; [exists []; auto|].
  destruct IH as (tl & E & H). destruct (strip vs) as [|x l] eqn:ES.
  - destruct (value_is_blank v) eqn:EB.
    + exists (v :: vs). split; auto. rewrite E. cbn. constructor; auto.
    + exists vs. split; auto. rewrite E. auto.
  - exists tl. split; auto. rewrite E at 1. reflexivity.
Qed.

Lemma strip_last vs : strip vs = [] \/ exists l v, strip vs = l ++ [v] /\ value_is_blank v = false.
Proof.
  induction vs as [|v vs IH]; cbn [strip]; auto.
  destruct (strip vs) as [|x l] eqn:ES.
  - destruct (value_is_blank v) eqn:EB; auto. right. exists [], v. auto.
  - right. destruct IH as [IH|(l' & w & E & H)]; [discriminate|].
    exists (v :: l'), w. split; auto. cbn. congruence.
Qed.

Lemma strip_incl vs v : In v (strip vs) -> In v vs.
Proof.
  intros H. destruct (strip_split vs) as (tl & E & _). rewrite E. apply in_or_app. auto.
Qed.

Lemma nvals_incl vs v : In v (nvals vs) -> In v vs.
Proof. intros H. eapply dedup_incl, strip_incl; eauto. Qed.

Lemma nvals_Forall (P : Value -> Prop) vs : Forall P vs -> Forall P (nvals vs).
Proof. rewrite !Forall_forall. intros H v Hv. apply H. now apply nvals_incl. Qed.

(** [redundantb] decides [Redundant]. *)
Lemma color_eqb_iff a b : color_eqb a b = true <-> a = b.
Proof.
  destruct a, b; cbn; split; intros H; try discriminate; try (injection H; intros; subst);
    rewrite ?andb_true_iff, ?Z.eqb_eq in *; try intuition congruence; try lia.
Qed.
Lemma option_eqb_iff {A} (f : A -> A -> bool) :
  (forall a b, f a b = true <-> a = b) -> forall a b, option_eqb f a b = true <-> a = b.
Proof.
  intros H [a|] [b|]; cbn; rewrite ?H; split; intros E; try discriminate; try congruence; auto.
Qed.
Lemma font_eqb_iff a b : font_eqb a b = true <-> a = b.
Proof.
  destruct a as [x h], b as [y k]. unfold font_eqb. cbn [fst snd].
  rewrite andb_true_iff, Z.eqb_eq, (option_eqb_iff Z.eqb Z.eqb_eq). split; [intros [-> ->]|]; auto.
  intros E. inv E. auto.
Qed.
Lemma jl_eqb_iff a b : jl_eqb a b = true <-> a = b.
Proof. destruct a, b; cbn; split; intros; try discriminate; auto. Qed.
Lemma jp_eqb_iff a b : jp_eqb a b = true <-> a = b.
Proof. destruct a, b; cbn; split; intros; try discriminate; auto. Qed.

Lemma redundantb_iff s v : redundantb s v = true <-> Redundant s v.
Proof.
  unfold Redundant. destruct s as [cf fo jl jp].
  destruct v; cbn [redundantb is_setting apply_setting s_cf s_fo s_jl s_jp];
    try (split; [discriminate|intros [H _]; discriminate]).
  - rewrite (option_eqb_iff _ color_eqb_iff). split; [intros ->; auto|intros [_ E]; congruence].
  - rewrite (option_eqb_iff _ font_eqb_iff). split; [intros ->; auto|intros [_ E]; congruence].
  - rewrite (option_eqb_iff _ jl_eqb_iff). split; [intros ->; auto|intros [_ E]; congruence].
  - rewrite (option_eqb_iff _ jp_eqb_iff). split; [intros ->; auto|intros [_ E]; congruence].
Qed.

Lemma dedup_NoRedundant vs : forall s, NoRedundant s (dedup s vs).
Proof.
  induction vs as [|v vs IH]; intros s; cbn [dedup]; [exact I|]. cbv zeta.
  destruct (redundantb s v) eqn:E.
  - apply redundantb_iff in E as [_ E]. rewrite E. apply IH.
  - cbn [NoRedundant]. split; auto. rewrite <- redundantb_iff. congruence.
Qed.

Lemma NoRedundant_app a b : forall s, NoRedundant s (a ++ b) -> NoRedundant s a.
Proof. induction a as [|v a IH]; intros s; cbn; [auto|]. intros [H H']. split; eauto. Qed.

Lemma nvals_NoRedundant vs : NoRedundant settings0 (nvals vs).
Proof.
  unfold nvals. destruct (strip_split (dedup settings0 vs)) as (tl & E & _).
  eapply NoRedundant_app. rewrite <- E. apply dedup_NoRedundant.
Qed.

Lemma NoRedundant_dedup vs : forall s, NoRedundant s vs -> dedup s vs = vs.
Proof.
  induction vs as [|v vs IH]; intros s; cbn [NoRedundant dedup]; auto. intros [H H']. cbv zeta.
  destruct (redundantb s v) eqn:E; [apply redundantb_iff in E; contradiction|].
  now rewrite IH.
Qed.

(** ** Reading the output back: adjacent texts merge *)

Definition plain_text (t : str) : bool :=
  forallb (fun c => negb ((c =? 91) || (c =? 93))) t.

Fixpoint merge (vs : list Value) : list Value :=
  match vs with
  | [] => []
  | VText t :: r =>
      match merge r with
      | VText u :: l => if plain_text t && plain_text u then VText (t ++ u) :: l
                        else VText t :: VText u :: l
      | l => VText t :: l
      end
  | v :: r => v :: merge r
  end.

Lemma plain_text_iff t : plain_text t = true <-> plain t.
Proof.
  unfold plain_text, plain. rewrite forallb_forall, Forall_forall.
  split; intros H c Hc; apply H in Hc; lia.
Qed.

Lemma TagDenotes_not_text b t : ~ TagDenotes b (VText t).
Proof. intros (l & k & r & _ & _ & H). inv H. Qed.

(** The token of an accepted value is a plain text or starts with a bracket. *)
Lemma TokenDenotes_head t v : TokenDenotes t (Ok v) ->
  (v = VText t /\ t <> [] /\ plain t /\ Forall text_char t)
  \/ ((exists c r, t = c :: r /\ bracket c) /\ forall u, v = VText u -> plain_text u = false).
Proof.
  intros H. remember (Ok v) as r eqn:Er.
  destruct H as [| |b v' P D|b P K N S|b P K|b P| |t N P F|t N P F]; try discriminate;
    injection Er as <-.
  - right. split; [exists 91, [91]; split; auto; now left|]. intros u E. injection E as <-. reflexivity.
  - right. split; [exists 93, [93]; split; auto; now right|]. intros u E. injection E as <-. reflexivity.
  - right. split; [exists 91, (b ++ [93]); split; auto; now left|].
    intros u ->. apply TagDenotes_not_text in D. contradiction.
  - left. auto.
Qed.

Lemma merge_text_other t vs :
  (forall u l, merge vs = VText u :: l -> plain_text t && plain_text u = false) ->
  merge (VText t :: vs) = VText t :: merge vs.
Proof.
  intros H. cbn [merge]. destruct (merge vs) as [|v l]; auto. destruct v; auto.
  now rewrite (H _ _ eq_refl).
Qed.

Lemma merge_text_join t u vs l : merge vs = VText u :: l -> plain_text t && plain_text u = true ->
  merge (VText t :: vs) = VText (t ++ u) :: l.
Proof. intros E H. cbn [merge]. now rewrite E, H. Qed.

Lemma merge_tag v r : is_text v = false -> merge (v :: r) = v :: merge r.
Proof. destruct v; try discriminate; reflexivity. Qed.

Lemma printed_meaning vs : Forall Parsable vs -> Forall small_hex vs ->
  Meaning (printed vs) (map Ok (merge vs)).
Proof.
  induction vs as [|v vs IH]; intros HP HS.
  - exists []. split; constructor.
  - inversion HP as [|? ? Hv HPs]; subst. inversion HS as [|? ? Hvs HSs]; subst.
    specialize (IH HPs HSs). unfold printed in *. cbn [map concat].
    set (rest := concat (map display vs)) in *. clearbody rest.
    destruct IH as (ts & HT & HD).
    destruct Hv as [| |t Hn Hp Ht|b v Hb HTD].
    + exists ([91; 91] :: ts). split; [apply (Tks_cons [91; 91]); [constructor|auto]|].
      rewrite merge_text_other by reflexivity. cbn [map]. constructor; auto. constructor.
    + exists ([93; 93] :: ts). split; [apply (Tks_cons [93; 93]); [constructor|auto]|].
      rewrite merge_text_other by reflexivity. cbn [map]. constructor; auto. constructor.
    + rewrite display_text by auto.
      destruct HT as [|t1 rest ts HT1 HT].
      * (* nothing follows *)
        inversion HD as [E|]. destruct (merge vs) eqn:EM; [|discriminate].
        rewrite merge_text_other by (rewrite EM; discriminate). rewrite EM. cbn [map].
        exists [t]. rewrite app_nil_r. split.
        -- apply Tokens_one; auto. apply Tk_text; auto. now left.
        -- constructor; [now apply Tn_text|constructor].
      * destruct (merge vs) as [|v1 l] eqn:EM; cbn [map] in HD; inversion HD as [|? ? ? ? HD1 HDs]; subst.
        destruct (TokenDenotes_head _ _ HD1) as [(-> & Hn1 & Hp1 & Ht1)|[(c & r & -> & Hc) Hu]].
        -- erewrite merge_text_join by
             (eauto; now rewrite (proj2 (plain_text_iff t) Hp), (proj2 (plain_text_iff t1) Hp1)).
           cbn [map].
           exists ((t ++ t1) :: ts). split.
           ++ rewrite app_assoc. apply Tks_cons; auto. apply Tk_text.
              ** destruct t; [congruence|discriminate].
              ** now apply plain_app.
              ** remember t1 as t2 eqn:Et2. destruct HT1; subst; auto;
                   try (inv Hp1; lia).
           ++ constructor; auto. apply Tn_text.
              ** destruct t; [congruence|discriminate].
              ** now apply plain_app.
              ** now apply Forall_app.
        -- rewrite merge_text_other.
           2: { intros u l' E. rewrite EM in E. injection E as -> ->. rewrite (Hu u eq_refl).
                apply andb_false_r. }
           rewrite EM. cbn [map]. exists (t :: (c :: r) :: ts). split.
           ++ apply Tks_cons; [|now apply Tks_cons]. apply Tk_text; auto. right. eexists. eexists.
              split; [reflexivity|auto].
           ++ constructor; auto. now apply Tn_text.
    + rewrite merge_tag by (destruct v; auto; apply TagDenotes_not_text in HTD; contradiction).
      destruct (display_tag _ _ Hb HTD Hvs) as (b' & P & -> & D).
      exists ((91 :: b' ++ [93]) :: ts). split.
      * apply Tks_cons; auto. now constructor.
      * cbn [map]. constructor; auto. now constructor.
Qed.

(** ** Idempotence *)

Lemma merge_printed vs : Forall Parsable vs -> printed (merge vs) = printed vs.
Proof.
  intros HP. unfold printed. induction HP as [|v vs Hv HP IH]; [reflexivity|].
  destruct (is_text v) eqn:E; [|rewrite merge_tag by auto; cbn [map concat]; congruence].
  destruct v; try discriminate. cbn [merge map concat].
  destruct (merge vs) as [|v1 l]; [cbn [map concat] in *; congruence|].
  destruct v1; try (cbn [map concat] in *; congruence).
  destruct (plain_text t && plain_text t0) eqn:EP.
  - apply andb_true_iff in EP as [E1 E2]. apply plain_text_iff in E1, E2.
    cbn [map concat]. rewrite display_text by now apply plain_app.
    rewrite <- IH. cbn [map concat]. rewrite !display_text by auto. now rewrite app_assoc.
  - cbn [map concat] in *. congruence.
Qed.

Lemma apply_setting_text t s : apply_setting (VText t) s = s.
Proof. reflexivity. Qed.

Lemma merge_NoRedundant vs : forall s, NoRedundant s vs -> NoRedundant s (merge vs).
Proof.
  induction vs as [|v vs IH]; intros s; [auto|]. cbn [NoRedundant]. intros [H H'].
  specialize (IH _ H').
  destruct (is_text v) eqn:E; [|rewrite merge_tag by auto; cbn; auto].
  destruct v; try discriminate. cbn [merge]. rewrite apply_setting_text in IH.
  assert (HT : forall u, ~ Redundant s (VText u)) by (intros u [HX _]; discriminate).
  destruct (merge vs) as [|v1 l]; [cbn; auto|].
  destruct v1; try (cbn [NoRedundant] in *; rewrite ?apply_setting_text; tauto).
  destruct (plain_text t && plain_text t0); cbn [NoRedundant] in *; rewrite ?apply_setting_text in *;
    splits; auto; try tauto; apply HT.
Qed.

Definition ends_shown (vs : list Value) : Prop :=
  vs = [] \/ exists l v, vs = l ++ [v] /\ value_is_blank v = false.

Lemma strip_ends vs : ends_shown vs -> strip vs = vs.
Proof.
  intros [->|(l & v & -> & H)]; [reflexivity|].
  induction l as [|x l IH]; cbn [app strip].
  - now rewrite H.
  - rewrite IH. destruct (l ++ [v]) eqn:E; auto. destruct l; discriminate.
Qed.

Lemma text_blank_app a b : value_is_blank (VText b) = false -> value_is_blank (VText (a ++ b)) = false.
Proof.
  cbn [value_is_blank]. unfold is_empty. intros H.
  destruct (trim (a ++ b)) as [|x y] eqn:E; auto. apply trim_nil in E. apply Forall_app in E as [_ E].
  apply trim_nil in E. rewrite E in H. auto.
Qed.

Lemma merge_ends vs : ends_shown vs -> ends_shown (merge vs).
Proof.
  intros [->|(l & v & -> & H)]; [now left|]. right.
  induction l as [|x l IH]; cbn [app].
  - destruct (is_text v) eqn:E; [|rewrite merge_tag by auto; exists [], v; auto].
    destruct v; try discriminate. exists [], (VText t). auto.
  - destruct IH as (l' & v' & E & H').
    destruct (is_text x) eqn:Ex; [|rewrite merge_tag by auto; rewrite E; exists (x :: l'), v'; auto].
    destruct x; try discriminate. cbn [merge].
    destruct (merge (l ++ [v])) as [|v1 l1] eqn:EM; [destruct l'; discriminate|].
    destruct v1; try (exists (VText t :: l'), v'; split; [cbn; congruence|auto]; fail).
    destruct (plain_text t && plain_text t0) eqn:EP.
    + destruct l' as [|y l'].
      * injection E as <- ->. exists [], (VText (t ++ t0)). split; auto. now apply text_blank_app.
      * injection E as <- ->. exists (VText (t ++ t0) :: l'), v'. auto.
    + exists (VText t :: l'), v'. split; auto. cbn. congruence.
Qed.

Lemma nvals_ends vs : ends_shown (nvals vs).
Proof. apply strip_last. Qed.

Lemma oks_map_Ok vs : oks (map Ok vs) = vs.
Proof. induction vs; cbn; congruence. Qed.

Lemma nvals_merge vs : nvals (merge (nvals vs)) = merge (nvals vs).
Proof.
  unfold nvals at 1. rewrite NoRedundant_dedup by apply merge_NoRedundant, nvals_NoRedundant.
  apply strip_ends, merge_ends, nvals_ends.
Qed.

Lemma normalize_meaning md ms rs s : Meaning ms rs -> Forall small_hex (oks rs) ->
  normalize md ms = Val s -> Meaning s (map Ok (merge (nvals (oks rs)))).
Proof.
  intros HM HS E. rewrite (normalize_val _ _ _ HM) in E. injection E as <-.
  apply printed_meaning; apply nvals_Forall; auto. eapply oks_Parsable; eauto.
Qed.

Lemma normalize_idempotent md ms rs s : Meaning ms rs -> Forall small_hex (oks rs) ->
  normalize md ms = Val s -> normalize md s = Val s.
Proof.
  intros HM HS E. pose proof (normalize_meaning _ _ _ _ HM HS E) as HM'.
  rewrite (normalize_val md s _ HM'). rewrite oks_map_Ok, nvals_merge.
  rewrite merge_printed by (apply nvals_Forall; eapply oks_Parsable; eauto).
  rewrite (normalize_val _ _ _ HM) in E. congruence.
Qed.

(** ** Content *)

Lemma content_text_app s t u r :
  content s (VText (t ++ u) :: r) = content s (VText t :: VText u :: r).
Proof. cbn [content]. rewrite map_app. now rewrite app_assoc. Qed.

Lemma content_cons s v r : 
  content s (v :: r) = content s [v] ++ content (apply_setting v s) r.
Proof. destruct v; cbn [content is_setting apply_setting app]; rewrite ?app_nil_r; reflexivity. Qed.

Lemma content_merge vs : forall s, content s (merge vs) = content s vs.
Proof.
  induction vs as [|v vs IH]; intros s; [auto|].
  rewrite (content_cons s v vs). rewrite <- IH.
  destruct (is_text v) eqn:E; [|rewrite merge_tag by auto; apply content_cons].
  destruct v; try discriminate. cbn [merge]. rewrite apply_setting_text.
  rewrite <- (apply_setting_text t s) at 3. rewrite <- content_cons.
  destruct (merge vs) as [|v1 l]; auto. destruct v1; auto.
  destruct (plain_text t && plain_text t0); auto. apply content_text_app.
Qed.

Lemma content_dedup vs : forall s, content s (dedup s vs) = content s vs.
Proof.
  induction vs as [|v vs IH]; intros s; [auto|]. cbn [dedup]. cbv zeta.
  destruct (redundantb s v) eqn:E.
  - apply redundantb_iff in E as [E1 E2]. rewrite (content_cons s v vs), E2, IH.
    destruct v; try discriminate; reflexivity.
  - rewrite (content_cons s v vs), (content_cons s v). now rewrite IH.
Qed.

Lemma content_app a : forall s b, exists s', content s (a ++ b) = content s a ++ content s' b.
Proof.
  induction a as [|v a IH]; intros s b; [exists s; reflexivity|].
  cbn [app]. rewrite (content_cons s v (a ++ b)), (content_cons s v a).
  destruct (IH (apply_setting v s) b) as (s' & E). exists s'. rewrite E. apply app_assoc.
Qed.

Lemma content_blank vs : forall s, Forall value_ok vs ->
  Forall (fun v => value_is_blank v = true) vs -> Forall (fun p => BlankItem (fst p)) (content s vs).
Proof.
  induction vs as [|v vs IH]; intros s HO HB; [constructor|].
  inversion HO as [|? ? Hv HOs]; subst. inversion HB as [|? ? Hb HBs]; subst.
  rewrite content_cons. apply Forall_app. split; auto.
  assert (HN : ~ Shown v) by (rewrite <- value_blank_iff by auto; congruence).
  destruct v; cbn [content is_setting]; try (repeat constructor; exact HN); try constructor.
  rewrite app_nil_r. rewrite Forall_forall. intros p Hp. apply in_map_iff in Hp as (c & <- & Hc).
  cbn. cbn [value_is_blank] in Hb. unfold is_empty in Hb.
  destruct (trim t) eqn:ET; [|discriminate]. apply trim_nil in ET.
  rewrite Forall_forall in ET. cbn in Hv. destruct Hv as [_ Hv]. rewrite Forall_forall in Hv.
  apply is_whitespace_latin; auto.
Qed.

Lemma normalize_content md ms rs s : Meaning ms rs -> Forall small_hex (oks rs) ->
  normalize md ms = Val s ->
  exists vs tail, Meaning s (map Ok vs)
    /\ content settings0 (oks rs) = content settings0 vs ++ tail
    /\ Forall (fun p => BlankItem (fst p)) tail.
Proof.
  intros HM HS E. exists (merge (nvals (oks rs))).
  pose proof (normalize_meaning _ _ _ _ HM HS E) as HM'.
  rewrite content_merge. unfold nvals.
  destruct (strip_split (dedup settings0 (oks rs))) as (tl & Etl & Htl).
  destruct (content_app (strip (dedup settings0 (oks rs))) settings0 tl) as (s' & Ec).
  exists (content s' tl). splits; auto.
  - rewrite <- Ec, <- Etl. symmetry. apply content_dedup.
  - apply content_blank; auto. apply Forall_forall. intros v Hv. apply Parsable_ok.
    pose proof (oks_Parsable _ _ HM) as HP. rewrite Forall_forall in HP. apply HP.
    eapply dedup_incl. rewrite Etl. apply in_or_app. eauto.
Qed.

(** [visible] is [content] without the settings and layout tags. *)
Definition shown_item (i : Item) : bool :=
  match i with IChar _ => true | ITag v => negb (value_is_blank v) end.

Lemma visible_content vs : forall s, visible vs = filter shown_item (map fst (content s vs)).
Proof.
  induction vs as [|v vs IH]; intros s; [reflexivity|].
  destruct v; cbn [visible content is_setting map fst filter shown_item value_is_blank negb];
    try (now rewrite <- IH); try apply IH.
  rewrite map_app, filter_app, <- IH. f_equal. rewrite map_map. cbn [fst].
  clear. induction t; cbn; congruence.
Qed.

Lemma normalize_visible md ms rs s : Meaning ms rs -> Forall small_hex (oks rs) ->
  normalize md ms = Val s ->
  exists vs w, Meaning s (map Ok vs) /\ visible (oks rs) = visible vs ++ map IChar w /\ Forall space w.
Proof.
  intros HM HS E. destruct (normalize_content _ _ _ _ HM HS E) as (vs & tail & HM' & Ec & Ht).
  exists vs. rewrite (visible_content _ settings0), Ec, map_app, filter_app.
  rewrite <- (visible_content _ settings0).
  assert (HO : Forall (fun p => match fst p with ITag v => value_ok v | _ => True end) tail).
  { assert (HP : Forall (fun p : Item * Settings => match fst p with ITag v => value_ok v | _ => True end)
               (content settings0 (oks rs))).
    { pose proof (oks_Parsable _ _ HM) as HP. generalize settings0. clear - HP.
      induction HP as [|v vs Hv _ IH]; intros s; [constructor|]. rewrite content_cons.
      apply Forall_app. split; auto. apply Parsable_ok in Hv.
      destruct v; cbn [content is_setting]; try (constructor; [exact Hv|constructor]); try (constructor; fail).
      rewrite app_nil_r. apply Forall_forall. intros p Hp. apply in_map_iff in Hp as (c & <- & _). exact I. }
    rewrite Ec in HP. now apply Forall_app in HP as [_ HP]. }
  assert (HW : exists w, filter shown_item (map fst tail) = map IChar w /\ Forall space w).
  { clear - Ht HO. induction Ht as [|[i st] tail Hi Ht IH]; [exists []; auto|].
    inversion HO as [|? ? Ho HOs]; subst. destruct (IH HOs) as (w & E & Hw).
    cbn [map fst filter]. destruct i as [c|v]; cbn [shown_item fst BlankItem] in *.
    - exists (c :: w). cbn. split; [congruence|constructor; auto].
    - rewrite <- (value_blank_iff v) in Hi by auto. destruct (value_is_blank v); [|exfalso; auto].
      cbn. eauto. }
  destruct HW as (w & E1 & Hw). exists w. rewrite E1. auto.
Qed.

Lemma normalize_ends md ms rs s : Meaning ms rs -> Forall small_hex (oks rs) ->
  normalize md ms = Val s ->
  exists vs, Meaning s (map Ok vs) /\ NoRedundant settings0 vs
    /\ (vs = [] \/ exists l v, vs = l ++ [v] /\ Shown v).
Proof.
  intros HM HS E. pose proof (normalize_meaning _ _ _ _ HM HS E) as HM'.
  eexists. split; [exact HM'|]. split; [apply merge_NoRedundant, nvals_NoRedundant|].
  destruct (merge_ends _ (nvals_ends (oks rs))) as [->|(l & v & El & H)]; auto.
  right. exists l, v. split; auto. apply value_blank_iff; auto. apply Parsable_ok.
  pose proof (oks_Parsable _ _ HM') as HP. rewrite oks_map_Ok, El in HP.
  apply Forall_app in HP as [_ HP]. now inv HP.
Qed.

(** ** [is_blank] *)

Lemma all_blank_val rs : all_blank (map Val rs) = Val true <->
  exists vs, rs = map Ok vs /\ Forall (fun v => value_is_blank v = true) vs.
Proof.
  induction rs as [|[v|e] rs IH]; cbn [map all_blank bind].
  - split; auto. intros _. exists []. auto.
  - destruct (value_is_blank v) eqn:E.
    + rewrite IH. split.
      * intros (vs & -> & H). exists (v :: vs). auto.
      * intros (vs & Ev & H). destruct vs as [|x vs]; [discriminate|]. injection Ev as -> ->.
        inv H. eauto.
    + split; [discriminate|]. intros (vs & Ev & H). destruct vs as [|x vs]; [discriminate|].
      injection Ev as -> ->. inv H. congruence.
  - split; [discriminate|]. intros (vs & Ev & _). destruct vs; discriminate.
Qed.

Lemma all_blank_true_vals l : all_blank l = Val true -> exists rs, l = map Val rs.
Proof.
  induction l as [|m l IH]; cbn [all_blank]; [exists []; auto|].
  destruct m as [r| |]; cbn [bind]; try discriminate.
  destruct r as [v|e]; [|discriminate]. destruct (value_is_blank v); [|discriminate].
  intros H. destruct (IH H) as (rs & ->). exists (Ok v :: rs). reflexivity.
Qed.

Lemma Meaning_oks_ok ms vs : Meaning ms (map Ok vs) -> Forall value_ok vs.
Proof.
  intros H. apply oks_Parsable in H. rewrite oks_map_Ok in H.
  eapply Forall_impl; [|exact H]. apply Parsable_ok.
Qed.

Lemma blank_iff_not_shown vs : Forall value_ok vs ->
  Forall (fun v => value_is_blank v = true) vs <-> Forall (fun v => ~ Shown v) vs.
Proof.
  intros HO. induction HO as [|v vs Hv _ IH]; [split; intros _; constructor|].
  split; intros H; inversion H; subst; constructor; try tauto.
  - rewrite <- value_blank_iff by auto. congruence.
  - destruct (value_is_blank v) eqn:E; auto. apply value_blank_iff in E; [contradiction|auto].
Qed.

Lemma is_blank_iff md ms :
  is_blank md ms = Val true <-> exists vs, Meaning ms (map Ok vs) /\ Forall (fun v => ~ Shown v) vs.
Proof.
  unfold is_blank. split.
  - intros H. destruct (all_blank_true_vals _ H) as (rs & E). rewrite E in H.
    apply all_blank_val in H as (vs & -> & HB). exists vs.
    apply values_meaning in E. split; auto. apply blank_iff_not_shown; auto.
    eapply Meaning_oks_ok; eauto.
  - intros (vs & HM & HB). apply blank_iff_not_shown in HB; [|eapply Meaning_oks_ok; eauto].
    apply (values_meaning md) in HM. rewrite HM. apply all_blank_val. eauto.
Qed.

Lemma all_blank_false l : all_blank l = Val false <->
  exists vs res l', l = map (fun v => Val (Ok v)) vs ++ Val res :: l'
    /\ Forall (fun v => value_is_blank v = true) vs
    /\ match res with Ok v => value_is_blank v = false | Err _ => True end.
Proof.
  induction l as [|m l IH]; cbn [all_blank].
  - split; [discriminate|]. intros (vs & res & l' & E & _). destruct vs; discriminate.
  - destruct m as [r| |]; cbn [bind]; try (split; [discriminate|];
      intros (vs & res & l' & E & _); destruct vs; discriminate).
    destruct r as [v|e].
    + destruct (value_is_blank v) eqn:EB.
      * rewrite IH. split.
        -- intros (vs & res & l' & -> & H1 & H2). exists (v :: vs), res, l'. auto.
        -- intros (vs & res & l' & E & H1 & H2). destruct vs as [|x vs].
           ++ injection E as <- ->. congruence.
           ++ injection E as <- ->. inv H1. eauto 6.
      * split; auto. intros _. exists [], (Ok v), l. auto.
    + split; auto. intros _. exists [], (Err e), l. auto.
Qed.

Lemma is_blank_false_iff md ms ts : Tokens ms ts ->
  is_blank md ms = Val false <->
  exists ts1 vs1 t res ts2, ts = ts1 ++ t :: ts2 /\ Forall2 (fun t v => TokenDenotes t (Ok v)) ts1 vs1
    /\ Forall (fun v => ~ Shown v) vs1 /\ TokenDenotes t res
    /\ match res with Ok v => Shown v | Err _ => True end.
Proof.
  intros HT. unfold is_blank. rewrite (values_tokens md ms ts HT).
  pose proof (Tokens_Token _ _ HT) as HTT. clear HT. rewrite all_blank_false. split.
  - intros (vs & res & l' & E & HB & HR). revert ts HTT E.
    induction vs as [|v vs IH]; intros ts HTT E; destruct ts as [|t ts]; try discriminate;
      injection E as E1 E2; inversion HTT as [|? ? (rest & Ht) HTs]; subst.
    + exists [], [], t, res, ts. splits; auto. { eapply try_Token; eauto. }
      destruct res as [v|]; auto. apply value_blank_iff; auto. apply Parsable_ok.
      eapply TokenDenotes_parsable. eapply try_Token; eauto.
    + inv HB. destruct (IH H2 ts HTs E2) as (ts1 & vs1 & t' & res' & ts2 & -> & H5 & H6 & H7 & H8).
      exists (t :: ts1), (v :: vs1), t', res', ts2.
      assert (HV : TokenDenotes t (Ok v)) by (eapply try_Token; eauto).
      splits; auto. constructor; auto. rewrite <- value_blank_iff; [congruence|].
      eapply Parsable_ok, TokenDenotes_parsable; eauto.
  - intros (ts1 & vs1 & t & res & ts2 & -> & H1 & H2 & H3 & H4). exists vs1, res, (map try_from ts2).
    splits.
    + rewrite map_app. cbn [map]. rewrite (TokenDenotes_try _ _ H3). f_equal.
      clear - H1. induction H1; cbn; auto. rewrite (TokenDenotes_try _ _ H). congruence.
    + clear - H1 H2. induction H1; inv H2; constructor; auto.
      destruct (value_is_blank y) eqn:E; auto. apply value_blank_iff in E; [contradiction|].
      eapply Parsable_ok, TokenDenotes_parsable; eauto.
    + destruct res as [v|]; auto. apply value_blank_iff; auto.
      eapply Parsable_ok, TokenDenotes_parsable; eauto.
Qed.

Lemma strip_blank vs : Forall (fun v => value_is_blank v = true) vs -> strip vs = [].
Proof. induction 1 as [|v vs H _ IH]; cbn [strip]; auto. now rewrite IH, H. Qed.

Lemma strip_nil vs : strip vs = [] -> Forall (fun v => value_is_blank v = true) vs.
Proof. intros H. destruct (strip_split vs) as (tl & E & HF). rewrite H in E. cbn in E. now subst. Qed.

Lemma blank_normalize md ms : is_blank md ms = Val true -> normalize md ms = Val [].
Proof.
  intros H. apply is_blank_iff in H as (vs & HM & HB).
  rewrite (normalize_val md ms _ HM), oks_map_Ok. unfold nvals. rewrite strip_blank; auto.
  apply blank_iff_not_shown in HB; [|eapply Meaning_oks_ok; eauto].
  rewrite Forall_forall in *. intros v Hv. apply HB. eapply dedup_incl; eauto.
Qed.

Lemma printed_nil vs : Forall Parsable vs -> printed vs = [] -> vs = [].
Proof.
  intros HP H. destruct vs as [|v vs]; auto. exfalso. inversion HP as [|? ? Hv _]; subst.
  unfold printed in H. cbn [map concat] in H. apply app_eq_nil in H as [H _].
  destruct Hv as [| |t Hn Hp Ht|b v Hb HD]; try discriminate.
  - now rewrite display_text in H.
  - revert H. destruct v; cbn [display]; repeat match goal with
      | |- context [match ?o with _ => _ end] => destruct o
      end; try (unfold lit; cbn; discriminate).
    apply TagDenotes_not_text in HD. contradiction.
Qed.

Lemma redundant_blank s v : redundantb s v = true -> value_is_blank v = true.
Proof. destruct v; try discriminate; reflexivity. Qed.

Lemma dedup_blank vs : forall s, Forall (fun v => value_is_blank v = true) (dedup s vs) ->
  Forall (fun v => value_is_blank v = true) vs.
Proof.
  induction vs as [|v vs IH]; intros s; cbn [dedup]; auto. cbv zeta.
  destruct (redundantb s v) eqn:E; intros H.
  - constructor; eauto using redundant_blank.
  - inv H. constructor; eauto.
Qed.

Lemma normalize_blank md ms vs : Meaning ms (map Ok vs) -> normalize md ms = Val [] ->
  is_blank md ms = Val true.
Proof.
  intros HM E. apply is_blank_iff. exists vs. split; auto.
  rewrite (normalize_val md ms _ HM), oks_map_Ok in E. injection E as E.
  apply printed_nil in E.
  - unfold nvals in E. apply strip_nil, dedup_blank in E.
    apply blank_iff_not_shown; auto. eapply Meaning_oks_ok; eauto.
  - apply nvals_Forall. apply oks_Parsable in HM. now rewrite oks_map_Ok in HM.
Qed.

(** ** Text *)

Lemma text_spans_iff md ms l :
  text_spans md ms = Val l <-> exists rs, Meaning ms rs /\ l = texts rs.
Proof.
  destruct (Tokens_exists ms) as (ts & HT).
  destruct (meaning_or_panic ms ts HT) as [[HE HN]|(rs & HM)].
  - apply (text_spans_panic md ms ts HT) in HE. rewrite HE. split; [discriminate|].
    intros (rs & HM & _). exfalso. eapply HN; eauto.
  - unfold text_spans. pose proof HM as HM'. apply (values_meaning md) in HM'.
    rewrite HM', spans_of_val. split.
    + intros E. injection E as <-. eauto.
    + intros (rs' & HM2 & ->). now rewrite (Meaning_fun _ _ _ HM HM2).
Qed.

Lemma join_interspersed sep l : Interspersed sep l (join sep l).
Proof.
  induction l as [|x l IH]; [constructor|]. destruct l as [|y l]; [constructor|].
  change (join sep (x :: y :: l)) with (x ++ sep ++ join sep (y :: l)). now constructor.
Qed.

Lemma join_text_iff md ms sep s :
  join_text md ms sep = Val s <-> exists rs, Meaning ms rs /\ Interspersed sep (texts rs) s.
Proof.
  assert (HI : forall l s, Interspersed sep l s <-> s = join sep l).
  { intros l s'. split; [|intros ->; apply join_interspersed].
    induction 1; auto. change (s0 ++ sep ++ r = s0 ++ sep ++ join sep (s' :: l)). congruence. }
  unfold join_text. destruct (text_spans md ms) as [l| |] eqn:E; cbn [bind].
  - apply text_spans_iff in E as (rs & HM & ->). split.
    + intros H. injection H as <-. exists rs. split; auto. now apply HI.
    + intros (rs' & HM' & H). rewrite (Meaning_fun _ _ _ HM HM'). apply HI in H. congruence.
  - split; [discriminate|]. intros (rs & HM & _).
    assert (E' : text_spans md ms = Val (texts rs)) by (apply text_spans_iff; eauto). congruence.
  - split; [discriminate|]. intros (rs & HM & _).
    assert (E' : text_spans md ms = Val (texts rs)) by (apply text_spans_iff; eauto). congruence.
Qed.

Lemma Interspersed_nil_concat l s : Interspersed [] l s -> s = concat l.
Proof. induction 1; cbn; rewrite ?app_nil_r; auto. cbn in IHInterspersed. congruence. Qed.

Lemma plain_text_split t : t <> [] -> plain t \/ exists p c r, t = p ++ c :: r /\ plain p /\ bracket c.
Proof.
  induction t as [|x t IH]; [congruence|]. intros _.
  assert (D : bracket x \/ (x <> 91 /\ x <> 93)) by (unfold bracket; lia).
  destruct D as [D|D].
  - right. exists [], x, t. splits; auto. constructor.
  - destruct t as [|y t]; [left; repeat constructor; tauto|].
    destruct IH as [IH|(p & c & r & E & Hp & Hc)]; [discriminate| |].
    + left. constructor; auto.
    + right. exists (x :: p), c, r. splits; auto. { rewrite E. auto. } constructor; auto.
Qed.

Lemma escape_app a b : escape (a ++ b) = escape a ++ escape b.
Proof.
  induction a as [|c a IH]; cbn [app escape]; auto.
  destruct ((c =? 91) || (c =? 93)); cbn [app]; congruence.
Qed.

Lemma escape_plain p : plain p -> escape p = p.
Proof.
  induction 1 as [|c p [H1 H2] _ IH]; cbn [escape]; auto.
  destruct (Z.eqb_spec c 91), (Z.eqb_spec c 93); cbn; congruence.
Qed.

Lemma escape_meaning n : forall t, (List.length t <= n)%nat -> Forall text_char t ->
  exists us, Meaning (escape t) (map (fun u => Ok (VText u)) us) /\ concat us = t.
Proof.
  induction n as [|n IH]; intros t Hn Ht.
  - destruct t; [|cbn in Hn; lia]. exists []. split; auto. exists []. split; constructor.
  - destruct t as [|x t]; [exists []; split; auto; exists []; split; constructor|].
    destruct (plain_text_split (x :: t)) as [HP|(p & c & r & E & Hp & Hc)]; [discriminate| |].
    + exists [x :: t]. split; [|cbn; now rewrite app_nil_r]. exists [x :: t].
      rewrite escape_plain by auto. split.
      * apply Tokens_one; [discriminate|]. apply Tk_text; auto; [discriminate|now left].
      * constructor; [|constructor]. apply Tn_text; auto. discriminate.
    + rewrite E in *. clear E x t. apply Forall_app in Ht as [Ht1 Ht2]. inversion Ht2 as [|? ? _ Ht3]; subst.
      rewrite app_length in Hn. cbn in Hn.
      destruct (IH r) as (us & (ts & HT & HD) & Ec); [lia|auto|].
      assert (HM : Meaning (escape (c :: r)) (map (fun u => Ok (VText u)) ([c] :: us))).
      { exists ([c; c] :: ts). cbn [escape map]. destruct Hc as [-> | ->]; cbn [Z.eqb Pos.eqb orb].
        - split; [apply (Tks_cons [91; 91]); [constructor|auto]|constructor; auto; constructor].
        - split; [apply (Tks_cons [93; 93]); [constructor|auto]|constructor; auto; constructor]. }
      destruct p as [|y p].
      * exists ([c] :: us). split; auto. cbn. congruence.
      * exists ((y :: p) :: [c] :: us). split; [|cbn [concat app]; congruence].
        destruct HM as (ts' & HT' & HD').
        rewrite escape_app, (escape_plain (y :: p)) by auto. exists ((y :: p) :: ts'). split.
        -- apply Tks_cons; auto. apply Tk_text; auto; [discriminate|]. right.
           exists c, (c :: escape r). split; auto. cbn [escape].
           destruct Hc as [-> | ->]; reflexivity.
        -- cbn [map]. constructor; auto. apply Tn_text; auto. discriminate.
Qed.

Lemma texts_map us : texts (map (fun u => Ok (VText u)) us) = us.
Proof. induction us; cbn; congruence. Qed.

Lemma join_escape md t : Forall text_char t -> join_text md (escape t) [] = Val t.
Proof.
  intros Ht. destruct (escape_meaning (List.length t) t) as (us & HM & E); auto.
  apply join_text_iff. eexists. split; [exact HM|]. rewrite texts_map, <- E.
  assert (H : Interspersed [] us (join [] us)) by apply join_interspersed.
  rewrite <- (Interspersed_nil_concat _ _ H). auto.
Qed.

(** ** Corollaries *)

Lemma values_in md ms m : In m (values md ms) -> exists t rest, Token t rest /\ m = try_from t.
Proof.
  intros H. destruct (Tokens_exists ms) as (ts & HT). rewrite (values_tokens md ms ts HT) in H.
  apply in_map_iff in H as (t & <- & Hin). apply Tokens_Token in HT. rewrite Forall_forall in HT.
  destruct (HT t Hin) as (rest & Ht). eauto.
Qed.

Lemma parsed_parsable md ms v : In (Val (Ok v)) (values md ms) -> Parsable v.
Proof.
  intros H. apply values_in in H as (t & rest & Ht & E). symmetry in E.
  eapply TokenDenotes_parsable, try_Token; eauto.
Qed.

Lemma parsed_in_range md ms v : In (Val (Ok v)) (values md ms) -> value_ok v.
Proof. intros H. eapply Parsable_ok, parsed_parsable; eauto. Qed.

Lemma normalize_well_formed md ms rs s :
  Meaning ms rs -> Forall small_hex (oks rs) -> normalize md ms = Val s ->
  exists vs, values md s = map (fun v => Val (Ok v)) vs.
Proof.
  intros HM HS E. pose proof (normalize_meaning _ _ _ _ HM HS E) as HM'.
  apply (values_meaning md) in HM'. rewrite map_map in HM'. eauto.
Qed.

Lemma Tokens_Forall (P : Z -> Prop) s ts : Tokens s ts -> Forall P s -> Forall (Forall P) ts.
Proof.
  induction 1 as [|t rest ts Ht _ IH]; intros HF; constructor; apply Forall_app in HF; tauto.
Qed.

Lemma ascii_no_splits b : Forall (fun c => 0 <= c < 128) b -> ~ SplitsChar b.
Proof.
  intros HF (l & k & r & -> & _ & HS). apply Forall_app in HF as [_ HF].
  inv HS; repeat match goal with H : Forall _ (_ :: _) |- _ => inv H end; lia.
Qed.

Lemma ascii_no_panic md ms : Forall (fun c => 0 <= c < 128) ms ->
  (exists s, normalize md ms = Val s) /\ (exists b, is_blank md ms = Val b)
  /\ (exists l, text_spans md ms = Val l)
  /\ Forall (fun m => exists r, m = Val r) (values md ms).
Proof.
  intros HF. destruct (Tokens_exists ms) as (ts & HT).
  assert (HN : ~ Exists PanicToken ts).
  { pose proof (Tokens_Forall _ _ _ HT HF) as HFs. rewrite Exists_exists.
    intros (t & Hin & b & Hb & -> & HS). rewrite Forall_forall in HFs. specialize (HFs _ Hin).
    inversion HFs as [|? ? _ HFb]; subst. apply Forall_app in HFb as [HFb _].
    now apply ascii_no_splits in HFb. }
  apply (meaning_panic ms ts HT) in HN as (rs & HM). splits.
  - eexists. apply normalize_val; eauto.
  - unfold is_blank. apply (values_meaning md) in HM. rewrite HM. clear.
    induction rs as [|[v|e] rs IH]; cbn [map all_blank bind]; eauto. destruct (value_is_blank v); eauto.
  - eexists. apply text_spans_iff. eauto.
  - apply (values_meaning md) in HM. rewrite HM. apply Forall_forall. intros m Hm.
    apply in_map_iff in Hm as (r & <- & _). eauto.
Qed.
