(** Proofs about font tables, tfon and fixed widths. *)

From Verif Require Import Base Str Multi Color Oer Crc Raster Font Tfon Graphic Spec_Font Proofs_Str
  Proofs_Color Proofs_Oer Proofs_Font.
From Coq Require Import ZifyBool ZifyNat.
Ltac Zify.zify_post_hook ::= Z.div_mod_to_equations.

Lemma used_font_cons f t : f_number f <> 0 -> used_fonts (f :: t) = f :: used_fonts t.
Proof. intros H. cbn [used_fonts]. destruct (f_number f); congruence. Qed.
Lemma used_font_skip f t : f_number f = 0 -> used_fonts (f :: t) = used_fonts t.
Proof. intros H. cbn [used_fonts]. now rewrite H. Qed.

Lemma used_font_In f t : In f (used_fonts t) <-> In f t /\ used_font f.
Proof.
  unfold used_font. induction t as [|d r IH]; [cbn; tauto|].
  destruct (Z.eq_dec (f_number d) 0) as [E|E]; [rewrite used_font_skip|rewrite used_font_cons]; auto;
    cbn [In]; rewrite IH; intuition congruence.
Qed.

Lemma existsb_fonts n t : n <> 0 ->
  (existsb (fun g => f_number g =? n) t = true <-> In n (map f_number (used_fonts t))).
Proof.
  intros Hn. rewrite existsb_exists, in_map_iff. split.
  - intros (d & I & E). exists d. rewrite used_font_In. unfold used_font. splits; auto; lia.
  - intros (d & E & I). rewrite used_font_In in I. exists d. split; [tauto|lia].
Qed.

Lemma font_numbers_spec t : table_fields t ->
  (validate_font_numbers t = Ok tt /\ NoDup (map f_number (used_fonts t)))
  \/ exists n, FirstDup (map f_number (used_fonts t)) n
       /\ validate_font_numbers t = Err (FDuplicateNumber n).
Proof.
  induction t as [|f r IH]; intros H; [left; split; [reflexivity|constructor]|].
  inversion H as [|? ? Hf Hr]; subst. specialize (IH Hr). destruct Hf as [Hf _]. unfold u8 in Hf.
  cbn [validate_font_numbers].
  destruct (Z.eq_dec (f_number f) 0) as [E|E].
  { rewrite used_font_skip, E by auto. exact IH. }
  rewrite used_font_cons by auto. cbn [map].
  destruct (Z.ltb_spec 0 (f_number f)); [|lia]. cbn [andb].
  destruct (existsb (fun g => f_number g =? f_number f) r) eqn:X.
  - rewrite existsb_fonts in X by auto. right. exists (f_number f).
    split; [now apply FirstDup_cons_in|reflexivity].
  - assert (N : ~ In (f_number f) (map f_number (used_fonts r))).
    { intros I. rewrite <- existsb_fonts in I by auto. congruence. }
    destruct IH as [[-> IH]|(n & F & ->)].
    + left. split; [reflexivity|now constructor].
    + right. exists n. split; [now apply FirstDup_cons_out|reflexivity].
Qed.

Lemma validate_fonts_spec t : table_fields t ->
  (validate_fonts t = Val (Ok tt) /\ forall f, In f t -> used_font f -> valid_font f)
  \/ exists pre f post, t = pre ++ f :: post /\ used_font f
       /\ (forall g, In g pre -> used_font g -> valid_font g)
       /\ ((exists e, FontVerdict f (Err e) /\ validate_fonts t = Val (Err e))
           \/ (font_validate f = Panic /\ validate_fonts t = Panic)).
Proof.
  induction t as [|f r IH]; intros H; [left; split; [reflexivity|contradiction]|].
  inversion H as [|? ? Hf Hr]; subst. specialize (IH Hr). cbn [validate_fonts].
  assert (S : validate_fonts (f :: r) = validate_fonts r -> (used_font f -> valid_font f) ->
    (validate_fonts (f :: r) = Val (Ok tt) /\ forall g, In g (f :: r) -> used_font g -> valid_font g)
    \/ exists pre g post, f :: r = pre ++ g :: post /\ used_font g
       /\ (forall g, In g pre -> used_font g -> valid_font g)
       /\ ((exists e, FontVerdict g (Err e) /\ validate_fonts (f :: r) = Val (Err e))
           \/ (font_validate g = Panic /\ validate_fonts (f :: r) = Panic))).
  { intros E V. rewrite E. destruct IH as [[E' F]|(pre & g & post & E' & U & P & C)].
    - left. split; [auto|]. intros g [<-|I]; auto.
    - right. exists (f :: pre), g, post. splits; auto; [now rewrite E'|].
      intros k [<-|I]; auto. }
  cbn [validate_fonts] in S.
  assert (N : u8 (f_number f)) by apply Hf. unfold u8 in N.
  destruct (Z.ltb_spec 0 (f_number f)) as [L|L].
  - destruct (font_validate_cases f Hf) as [(v & E & V)|(E & n & V & _)].
    + rewrite E in *. destruct v as [[]|e]; cbn [try] in *.
      * apply S; auto. intros _. now inversion V.
      * right. exists [], f, r. splits; auto; [unfold used_font; lia|contradiction|]. left. eauto.
    + rewrite E in *. right. exists [], f, r. splits; auto; [unfold used_font; lia|contradiction].
  - apply S; auto. unfold used_font. lia.
Qed.

Lemma table_validate_cases t : table_fields t ->
  (exists r, font_table_validate t = Val r /\ TableVerdict t r)
  \/ (font_table_validate t = Panic
      /\ exists pre f post, t = pre ++ f :: post /\ used_font f
           /\ (forall g, In g pre -> used_font g -> valid_font g) /\ font_validate f = Panic).
Proof.
  intros H. unfold font_table_validate.
  destruct (validate_fonts_spec t H) as [[-> V]|(pre & f & post & E & U & P & [(e & V & ->)|(V & ->)])];
    cbn [try].
  - left. destruct (font_numbers_spec t H) as [[-> N]|(n & F & ->)]; eexists; (split; [reflexivity|]).
    + apply TVOk. split; auto.
    + now apply TVDup.
  - left. eexists. split; [reflexivity|]. eapply TVFont; eauto.
  - right. split; [reflexivity|]. exists pre, f, post. auto.
Qed.

Lemma split_uniq {A} (P : A -> Prop) (l1 l1' : list A) x x' l2 l2' :
  l1 ++ x :: l2 = l1' ++ x' :: l2' -> (forall y, In y l1 -> P y) -> ~ P x ->
  (forall y, In y l1' -> P y) -> ~ P x' -> l1 = l1' /\ x = x' /\ l2 = l2'.
Proof.
  revert l1'. induction l1 as [|a l1 IH]; intros [|b l1'] E H1 N1 H2 N2; inversion E; subst; auto.
  - exfalso. apply N1, H2. cbn; auto.
  - exfalso. apply N2, H1. cbn; auto.
  - destruct (IH l1' H3) as (-> & -> & ->); auto; intros; [apply H1|apply H2]; cbn; auto.
Qed.

Lemma verdict_invalid f e : FontVerdict f (Err e) -> ~ valid_font f.
Proof. intros V H. pose proof (FontVerdict_fun _ _ _ V (VOk _ H)). discriminate. Qed.

Lemma TableVerdict_fun t r s : TableVerdict t r -> TableVerdict t s -> r = s.
Proof.
  intros Hr Hs. inversion Hr as [pre f post e E U P V|n A F|[A N]];
    inversion Hs as [pre' f' post' e' E' U' P' V'|n' A' F'|[A' N']]; subst; try reflexivity.
  - destruct (split_uniq (fun g => used_font g -> valid_font g) _ _ _ _ _ _ E') as (X1 & X2 & X3); auto;
      try (apply verdict_invalid in V, V'; tauto).
    subst. f_equal. pose proof (FontVerdict_fun _ _ _ V V'). congruence.
  - apply verdict_invalid in V. exfalso. apply V, A'; auto. rewrite in_app_iff; cbn; auto.
  - apply verdict_invalid in V. exfalso. apply V, A'; auto. rewrite in_app_iff; cbn; auto.
  - apply verdict_invalid in V'. exfalso. apply V', A; auto. rewrite in_app_iff; cbn; auto.
  - now rewrite (FirstDup_fun _ _ _ F F').
  - now apply FirstDup_NoDup in F.
  - apply verdict_invalid in V'. exfalso. apply V', A; auto. rewrite in_app_iff; cbn; auto.
  - now apply FirstDup_NoDup in F'.
Qed.

Lemma table_validate_ok t : table_fields t ->
  (font_table_validate t = Val (Ok tt) <-> valid_fonts t).
Proof.
  intros H. destruct (table_validate_cases t H) as [(r & E & V)|(E & pre & f & post & Et & U & P & Fp)];
    rewrite E; split.
  - intros X; inversion X; subst. now inversion V.
  - intros X. now rewrite (TableVerdict_fun _ _ _ V (TVOk _ X)).
  - discriminate.
  - intros [X _]. exfalso. assert (V : valid_font f) by (apply X; auto; subst t; rewrite in_app_iff; cbn; auto).
    apply font_validate_ok in V; [congruence|]. unfold table_fields in H. rewrite Forall_forall in H. apply H. subst t. rewrite in_app_iff; cbn; auto.
Qed.

Lemma table_validate_verdict t r : table_fields t -> font_table_validate t <> Panic ->
  (font_table_validate t = Val r <-> TableVerdict t r).
Proof.
  intros Hf Hp. destruct (table_validate_cases t Hf) as [(s & E & V)|(E & _)]; [|contradiction].
  rewrite E. split; [intros H; inversion H; now subst|].
  intros H. now rewrite (TableVerdict_fun _ _ _ V H).
Qed.

(** ** Lookup *)

Lemma NoDup_split {A} (num : A -> Z) (pre : list A) x post :
  NoDup (map num (pre ++ x :: post)) -> forall y, In y (pre ++ post) -> num y <> num x.
Proof.
  rewrite map_app. cbn [map]. intros N y I E. apply NoDup_remove_2 in N. apply N.
  rewrite <- E, <- map_app. now apply in_map.
Qed.

Lemma used_fonts_app a b : used_fonts (a ++ b) = used_fonts a ++ used_fonts b.
Proof.
  induction a as [|f a IH]; [reflexivity|]. cbn [app used_fonts]. rewrite IH. now destruct (f_number f).
Qed.
Lemma used_chars_app a b : used_chars (a ++ b) = used_chars a ++ used_chars b.
Proof.
  induction a as [|f a IH]; [reflexivity|]. cbn [app used_chars]. rewrite IH. now destruct (c_number f).
Qed.

Lemma OnlyFont_iff t n f : n <> 0 -> NoDup (map f_number (used_fonts t)) ->
  (OnlyFont t n f <-> In f t /\ f_number f = n).
Proof.
  intros Hn N. split.
  - intros (E & pre & post & -> & _). rewrite in_app_iff; cbn; auto.
  - intros (I & E). split; [auto|]. apply in_split in I. destruct I as (pre & post & ->).
    exists pre, post. split; [auto|]. intros g I Eg.
    rewrite used_fonts_app, used_font_cons in N by lia.
    apply (NoDup_split f_number _ _ _ N g); [|lia]. rewrite in_app_iff, !used_font_In.
    rewrite in_app_iff in I. unfold used_font. destruct I; [left|right]; split; auto; lia.
Qed.

Lemma font_lookup_spec t n f : n <> 0 -> NoDup (map f_number (used_fonts t)) ->
  (font_lookup t n = Some f <-> OnlyFont t n f).
Proof.
  intros Hn N. unfold font_lookup. rewrite find_spec, Z.eqb_eq. split.
  - intros (E & pre & post & -> & _). apply OnlyFont_iff; auto. rewrite in_app_iff; cbn; auto.
  - intros (E & pre & post & -> & F). split; [auto|]. exists pre, post. split; [auto|].
    intros g I. specialize (F g). rewrite in_app_iff in F. specialize (F (or_introl I)). lia.
Qed.

Lemma font_lookup_none t n : font_lookup t n = None <-> forall f, In f t -> f_number f <> n.
Proof.
  unfold font_lookup. split.
  - intros E f I. apply find_none with (x := f) in E; auto. lia.
  - intros H. destruct (find (fun f => f_number f =? n) t) eqn:E; [|reflexivity].
    apply find_some in E. destruct E as [I E]. specialize (H _ I). lia.
Qed.

Lemma character_only f n c : 1 <= n < 65536 -> good_numbers f ->
  (character f n = Some c <-> OnlyChar f n c).
Proof.
  intros Hn N. rewrite character_spec. unfold HasChar, OnlyChar. split.
  - intros (_ & E & pre & post & Ef & F). split; [auto|]. exists pre, post. split; [auto|].
    intros d I Ed. rewrite in_app_iff in I. destruct I as [I|I]; [now apply (F d)|].
    unfold good_numbers in N. rewrite Ef, used_chars_app, used_cons in N by lia.
    apply (NoDup_split c_number _ _ _ N d); [|lia]. rewrite in_app_iff, !used_In. unfold used. right.
    split; auto; lia.
  - intros (E & pre & post & Ef & F). splits; auto; [lia|]. exists pre, post. split; [auto|].
    intros d I. apply F. rewrite in_app_iff; auto.
Qed.

Lemma character_none_iff f n : character f n = None
  <-> 65536 <= n \/ forall c, In c (f_characters f) -> c_number c <> n.
Proof.
  unfold character. destruct (Z.ltb_spec n 65536) as [L|L].
  - split.
    + intros E. right. intros c I. apply find_none with (x := c) in E; auto. lia.
    + intros [H|H]; [lia|]. destruct (find (fun c => c_number c =? n) (f_characters f)) eqn:E; [|reflexivity].
      apply find_some in E. destruct E as [I E]. specialize (H _ I). lia.
  - split; auto.
Qed.

(** ** font_mut *)

Lemma font_mut_spec t n g t' : font_mut_set t n g = Some t' <->
  exists pre f post, t = pre ++ f :: post /\ f_number f = n
    /\ (forall k, In k pre -> f_number k <> n) /\ t' = pre ++ g :: post.
Proof.
  revert t'. induction t as [|f r IH]; intros t'; cbn [font_mut_set].
  - split; [discriminate|]. intros (pre & f & post & E & _). destruct pre; discriminate.
  - destruct (Z.eqb_spec (f_number f) n) as [E|E].
    + split.
      * intros H; inversion H; subst. exists [], f, r. splits; auto; contradiction.
      * intros (pre & k & post & Et & Ek & F & ->). destruct pre as [|a pre]; inversion Et; subst; [auto|].
        exfalso. apply (F a); cbn; auto.
    + split.
      * destruct (font_mut_set r n g) as [r'|]; [|discriminate]. intros H; inversion H; subst.
        destruct (proj1 (IH r') eq_refl) as (pre & k & post & -> & Ek & F & ->).
        exists (f :: pre), k, post. splits; auto. intros a [<-|I]; auto.
      * intros (pre & k & post & Et & Ek & F & ->). destruct pre as [|a pre]; inversion Et; subst; [contradiction|].
        rewrite (proj2 (IH (pre ++ g :: post))); [reflexivity|]. exists pre, k, post. splits; auto.
        intros b I. apply F. cbn; auto.
Qed.

Lemma font_mut_none t n g : font_mut_set t n g = None <-> forall f, In f t -> f_number f <> n.
Proof.
  induction t as [|f r IH]; cbn [font_mut_set]; [split; [contradiction|reflexivity]|].
  destruct (Z.eqb_spec (f_number f) n) as [E|E].
  - split; [discriminate|]. intros H. exfalso. apply (H f); cbn; auto.
  - destruct (font_mut_set r n g) as [r'|].
    + split; [discriminate|]. intros H. exfalso. assert (X : Some r' = None); [|discriminate].
      apply IH. intros k I. apply H. cbn; auto.
    + split; [|reflexivity]. intros _ k [<-|I]; auto. now apply IH.
Qed.

Lemma graphic_mut_spec t n g t' : graphic_mut_set t n g = Some t' <->
  exists pre f post, t = pre ++ f :: post /\ g_number f = n
    /\ (forall k, In k pre -> g_number k <> n) /\ t' = pre ++ g :: post.
Proof.
  revert t'. induction t as [|f r IH]; intros t'; cbn [graphic_mut_set].
  - split; [discriminate|]. intros (pre & f & post & E & _). destruct pre; discriminate.
  - destruct (Z.eqb_spec (g_number f) n) as [E|E].
    + split.
      * intros H; inversion H; subst. exists [], f, r. splits; auto; contradiction.
      * intros (pre & k & post & Et & Ek & F & ->). destruct pre as [|a pre]; inversion Et; subst; [auto|].
        exfalso. apply (F a); cbn; auto.
    + split.
      * destruct (graphic_mut_set r n g) as [r'|]; [|discriminate]. intros H; inversion H; subst.
        destruct (proj1 (IH r') eq_refl) as (pre & k & post & -> & Ek & F & ->).
        exists (f :: pre), k, post. splits; auto. intros a [<-|I]; auto.
      * intros (pre & k & post & Et & Ek & F & ->). destruct pre as [|a pre]; inversion Et; subst; [contradiction|].
        rewrite (proj2 (IH (pre ++ g :: post))); [reflexivity|]. exists pre, k, post. splits; auto.
        intros b I. apply F. cbn; auto.
Qed.

Lemma graphic_mut_none t n g : graphic_mut_set t n g = None <-> forall f, In f t -> g_number f <> n.
Proof.
  induction t as [|f r IH]; cbn [graphic_mut_set]; [split; [contradiction|reflexivity]|].
  destruct (Z.eqb_spec (g_number f) n) as [E|E].
  - split; [discriminate|]. intros H. exfalso. apply (H f); cbn; auto.
  - destruct (graphic_mut_set r n g) as [r'|].
    + split; [discriminate|]. intros H. exfalso. assert (X : Some r' = None); [|discriminate].
      apply IH. intros k I. apply H. cbn; auto.
    + split; [|reflexivity]. intros _ k [<-|I]; auto. now apply IH.
Qed.

Lemma font_lookup_first t n f : font_lookup t n = Some f <->
  exists pre post, t = pre ++ f :: post /\ f_number f = n /\ forall k, In k pre -> f_number k <> n.
Proof.
  unfold font_lookup. rewrite find_spec, Z.eqb_eq. split.
  - intros (E & pre & post & Et & F). exists pre, post. splits; auto. intros k I. specialize (F k I). lia.
  - intros (pre & post & Et & E & F). split; [auto|]. exists pre, post. splits; auto.
    intros k I. specialize (F k I). lia.
Qed.

Lemma graphic_lookup_first t n f : graphic_lookup t n = Some f <->
  exists pre post, t = pre ++ f :: post /\ g_number f = n /\ forall k, In k pre -> g_number k <> n.
Proof.
  unfold graphic_lookup. rewrite find_spec, Z.eqb_eq. split.
  - intros (E & pre & post & Et & F). exists pre, post. splits; auto. intros k I. specialize (F k I). lia.
  - intros (pre & post & Et & E & F). split; [auto|]. exists pre, post. splits; auto.
    intros k I. specialize (F k I). lia.
Qed.

(** ** Fixed width *)

Lemma font_width_iff f w : w <> 0 ->
  (font_width f = w <-> f_characters f <> [] /\ forall c, In c (f_characters f) -> c_width c = w).
Proof.
  intros Hw. unfold font_width. destruct (f_characters f) as [|c r] eqn:Ec.
  { cbn. split; [congruence|tauto]. }
  destruct (forallb (fun d => c_width d =? c_width c) (c :: r)) eqn:F.
  - rewrite forallb_forall in F. split.
    + intros <-. split; [discriminate|]. intros d I. specialize (F d I). lia.
    + intros [_ H]. apply H. cbn; auto.
  - split; [congruence|]. intros [_ H]. exfalso.
    assert (X : forallb (fun d => c_width d =? c_width c) (c :: r) = true); [|congruence].
    apply forallb_forall. intros d I. rewrite (H d I), (H c) by (cbn; auto). lia.
Qed.

Lemma font_width_differ f c d : In c (f_characters f) -> In d (f_characters f) ->
  c_width c <> c_width d -> font_width f = 0.
Proof.
  intros I J N. destruct (Z.eq_dec (font_width f) 0) as [|E]; [auto|].
  pose proof (proj1 (font_width_iff f _ E) eq_refl) as [_ H]. rewrite (H c I), (H d J) in N. congruence.
Qed.

(** ** Lookup by name *)

Lemma to_terminator_named s name : to_terminator s = name
  <-> ~ In 0 name /\ exists pad, s = name ++ pad /\ (pad = [] \/ exists r, pad = 0 :: r).
Proof.
  revert name. induction s as [|c s IH]; intros name; cbn [to_terminator].
  - split.
    + intros <-. split; [intros []|]. exists []. auto.
    + intros (_ & pad & E & _). symmetry in E. apply app_eq_nil in E as [-> _]. reflexivity.
  - destruct (Z.eqb_spec c 0) as [->|N].
    + split.
      * intros <-. split; [intros []|]. exists (0 :: s). split; auto. right. eauto.
      * intros (NI & pad & E & _). destruct name as [|x name]; [reflexivity|]. injection E as <- _. exfalso. apply NI. now left.
    + split.
      * intros <-. destruct (proj1 (IH _) eq_refl) as (NI & pad & E & P). split; [intros [?|?]; auto|].
        exists pad. split; auto. cbn [app]. now rewrite <- E.
      * intros (NI & pad & E & P). destruct name as [|x name].
        -- cbn in E. subst pad. destruct P as [P|(r & P)]; [discriminate|]. injection P as -> _. congruence.
        -- injection E as <- E. f_equal. apply IH. split; [intros I; apply NI; now right|]. exists pad. auto.
Qed.

Lemma named_iff f name : str_eqb (to_terminator (f_name f)) name = true <-> Named f name.
Proof. rewrite str_eqb_iff. apply to_terminator_named. Qed.

Lemma font_by_name_spec t name f : font_by_name t name = Some f
  <-> exists pre post, t = pre ++ f :: post /\ Named f name /\ forall g, In g pre -> ~ Named g name.
Proof.
  unfold font_by_name. induction t as [|g t IH]; cbn [find].
  - split; [discriminate|]. intros (pre & post & E & _). destruct pre; discriminate.
  - destruct (str_eqb (to_terminator (f_name g)) name) eqn:E.
    + apply named_iff in E. split.
      * intros H. injection H as <-. exists [], t. splits; auto.
      * intros (pre & post & Et & Hf & Hp). destruct pre as [|x pre]; [injection Et as <- _; reflexivity|].
        injection Et as <- _. exfalso. apply (Hp g); auto. now left.
    + assert (~ Named g name) as NN. { rewrite <- named_iff. congruence. }
      rewrite IH. split.
      * intros (pre & post & -> & Hf & Hp). exists (g :: pre), post. splits; auto. intros x [<-|I]; auto.
      * intros (pre & post & Et & Hf & Hp). destruct pre as [|x pre].
        -- injection Et as <- _. contradiction.
        -- injection Et as <- ->. exists pre, post. splits; auto. intros y I. apply Hp. now right.
Qed.

Lemma font_by_name_none t name : font_by_name t name = None <-> forall f, In f t -> ~ Named f name.
Proof.
  unfold font_by_name. split.
  - intros H f I. rewrite <- named_iff. rewrite (find_none _ _ H f I). discriminate.
  - intros H. destruct (find _ t) as [f|] eqn:E; auto. apply find_some in E as [I E]. apply named_iff in E.
    exfalso. exact (H f I E).
Qed.
