(** What the pattern iterator yields, and the results of [widths] and [fill]. *)

From Coq Require Import String ZifyBool ZifyNat.
From Verif Require Import Base Str Multi Color Font Config Sign Pattern
  Spec_Multi Spec_Color Spec_Font Spec_Tfon Spec_Sign Spec_Render Spec_Layout Spec_Page Spec_Pattern
  Proofs_Str Proofs_Split Proofs_Norm Proofs_Iter Proofs_Sign Proofs_Pages Proofs_Place Proofs_Build Proofs_Blank.
Open Scope list_scope.
Ltac Zify.zify_post_hook ::= Z.div_mod_to_equations.

(** ** The items of the iterator *)

Definition supp (d : Dms) (v : Value) : bool :=
  match value_tag v with
  | Some t => contains_tag (supported_multi_tags (d_multi_cfg d)) t
  | None => true
  end.

Definition RF := option (Rectangle * Z).
Definition fill_item (rf : RF) : list (result PatValue SyntaxError) :=
  match rf with Some (r, f) => [Ok (PFill r f)] | None => [] end.
Definition fill_item_rect (d : Dms) (rf : RF) : list (result PatValue SyntaxError) :=
  match rf with
  | Some (r, f) => if rect_eqb r (full_rect d) then [] else [Ok (PFill r f)]
  | None => []
  end.

(** State and items before one supported value. *)
Definition next_font (d : Dms) (n : Z) (v : Value) : Z :=
  match v with VFont None => default_font (d_multi_cfg d) | VFont (Some (m, _)) => m | _ => n end.
Definition next_rf (d : Dms) (n : Z) (rf : RF) (v : Value) : RF :=
  match v with
  | VText _ | VNewLine _ => None
  | VNewPage => Some (full_rect d, n)
  | VTextRectangle r => Some (extend_width_height r (full_rect d), n)
  | _ => rf
  end.
Definition before_item (d : Dms) (rf : RF) (v : Value) : list (result PatValue SyntaxError) :=
  match v with VNewPage => fill_item rf | VTextRectangle _ => fill_item_rect d rf | _ => [] end.

Fixpoint plist (d : Dms) (n : Z) (rf : RF) (rs : list (result Value SyntaxError))
  : list (result PatValue SyntaxError) :=
  match rs with
  | [] => if supp d VNewPage then fill_item rf else [Err (SUnsupportedTag (display VNewPage))]
  | Err e :: r => Err e :: plist d n rf r
  | Ok v :: r =>
      if supp d v then
        before_item d rf v ++ Ok (PVal v) :: plist d (next_font d n v) (next_rf d n rf v) r
      else Err (SUnsupportedTag (display v)) :: plist d n rf r
  end.

Lemma ms_next_reads md m r xs : Reads m (Val r :: xs) ->
  exists m', ms_next md m = Val (Some r, m') /\ Reads m' xs.
Proof.
  intros (ts & (a & b & Hs & Ho & HT) & E). destruct ts as [|t ts]; [discriminate|]. cbn [map] in E. injection E as E1 ->.
  inversion HT as [|t' rest ts' HK HT' E2]; subst. destruct m as [s off]. cbn [ms_str ms_off] in *. subst.
  destruct (next_slice_token md (a ++ t ++ rest) (len a) a (t ++ rest)) as (t2 & rest2 & Hr & Hn & HK2 & E); auto.
  { pose proof (Token_nonempty _ _ HK). destruct t; [congruence|discriminate]. }
  destruct (Token_unique _ _ _ _ HK HK2 Hr) as [<- <-].
  unfold ms_next. rewrite E. cbn [bind]. rewrite <- E1. cbn [bind]. eexists. split; [reflexivity|].
  exists ts. split; auto. exists (a ++ t), rest. cbn [ms_str ms_off]. splits; auto.
  - now rewrite app_assoc.
  - now rewrite len_app.
Qed.

Lemma ms_next_end md m : Reads m [] -> exists m', ms_next md m = Val (None, m').
Proof.
  intros (ts & (a & b & Hs & Ho & HT) & E). destruct ts; [|discriminate]. inversion HT; subst.
  rewrite app_nil_r in Hs. destruct m as [s off]. cbn [ms_str ms_off] in *. subst.
  unfold ms_next. rewrite next_slice_end by auto. cbn [bind]. eauto.
Qed.

Lemma pat_step_supp d st pat v : supp d v = true -> p_value st = None ->
  let n := p_font_num st in let rf := p_rect_font st in
  exists pv, pat_step d st pat v false =
    (Some (match before_item d rf v with x :: _ => x | [] => Ok (PVal v) end),
     mkPat pat pv (next_font d n v) (next_rf d n rf v) false)
  /\ pv = match before_item d rf v with [] => None | _ => Some v end.
Proof.
  intros HS _ n rf. unfold pat_step.
  assert (match value_tag v with Some tag => negb (contains_tag (supported_multi_tags (d_multi_cfg d)) tag) | None => false end = false) as ->.
  { unfold supp in HS. destruct (value_tag v); auto. now rewrite HS. }
  fold n rf. destruct v; cbn [before_item next_font next_rf]; try (eexists; split; reflexivity).
  - match goal with |- context [VFont ?o] => destruct o as [[m ?]|] end; eexists; split; reflexivity.
  - destruct rf as [[r f]|]; eexists; split; reflexivity.
  - destruct rf as [[q f]|]; cbn [fill_item_rect]; [destruct (rect_eqb q (full_rect d))|]; eexists; split; reflexivity.
Qed.

Lemma pat_items_plist md d rs : forall fuel m n rf, Reads m (map Val rs) ->
  (2 * List.length rs + 2 <= fuel)%nat ->
  pat_items_fuel md d fuel (mkPat m None n rf false) = map Val (plist d n rf rs).
Proof.
  induction rs as [|r rs IH]; intros fuel m n rf HR HF.
  - destruct (ms_next_end md m HR) as [m' E]. destruct fuel as [|[|fuel]]; [cbn in HF; lia|cbn in HF; lia|].
    cbn [pat_items_fuel]. unfold pat_next. cbn [p_end p_value p_pattern]. rewrite E. cbn [bind].
    unfold pat_step. cbn [value_tag p_font_num p_rect_font]. cbn [plist]. unfold supp. cbn [value_tag].
    destruct (contains_tag _ TNp); cbn [negb].
    + destruct rf as [[q f]|]; cbn [fill_item map]; [|reflexivity]. unfold pat_next. cbn [p_end]. reflexivity.
    + cbn [map]. unfold pat_next. cbn [p_end]. reflexivity.
  - cbn [map] in HR. destruct (ms_next_reads md m r _ HR) as (m' & E & HR'). cbn [List.length] in HF.
    destruct fuel as [|fuel]; [lia|]. cbn [pat_items_fuel]. unfold pat_next at 1. cbn [p_end p_value p_pattern].
    rewrite E. cbn [bind]. destruct r as [v|e]; cbn [plist].
    + destruct (supp d v) eqn:ES.
      * destruct (pat_step_supp d (mkPat m None n rf false) m' v ES eq_refl) as (pv & EP & Epv).
        cbn [p_font_num p_rect_font] in EP, Epv. rewrite EP.
        destruct (before_item d rf v) as [|x [|y l]] eqn:EB.
        -- cbn [app map]. subst pv. f_equal. apply IH; auto. lia.
        -- subst pv. cbn [app map]. f_equal. destruct fuel as [|fuel]; [lia|]. cbn [pat_items_fuel]. unfold pat_next at 1.
           cbn [p_end p_value p_pattern p_font_num p_rect_font]. f_equal. apply IH; auto. lia.
        -- exfalso. destruct v; cbn [before_item] in EB; try discriminate.
           ++ destruct rf as [[? ?]|]; discriminate EB.
           ++ destruct rf as [[? ?]|]; cbn in EB; [destruct (rect_eqb _ _)|]; discriminate EB.
      * unfold pat_step. cbn [p_font_num p_rect_font].
        assert (match value_tag v with Some tag => negb (contains_tag (supported_multi_tags (d_multi_cfg d)) tag) | None => false end = true) as ->.
        { unfold supp in ES. destruct (value_tag v); [now rewrite ES|discriminate]. }
        cbn [map]. f_equal. apply IH; auto. lia.
    + cbn [map p_font_num p_rect_font]. f_equal. apply IH; auto. lia.
Qed.

Lemma Meaning_length ms rs : Meaning ms rs -> (List.length rs <= List.length ms)%nat.
Proof.
  intros (ts & HT & HD). assert (List.length rs = List.length ts) as -> by (clear - HD; induction HD; cbn; congruence). clear HD rs.
  induction HT as [|t rest ts HK HT IH]; [reflexivity|]. rewrite app_length. cbn [List.length].
  pose proof (Token_nonempty _ _ HK). destruct t; [congruence|]. cbn [List.length]. lia.
Qed.

Lemma pat_items_val md d ms rs : Meaning ms rs ->
  pat_items md d ms = map Val (plist d (default_font (d_multi_cfg d))
                                 (Some (sign_rect d, default_font (d_multi_cfg d))) rs).
Proof.
  intros H. unfold pat_items, pat_new. apply pat_items_plist.
  - now apply Reads_meaning.
  - apply Meaning_length in H. lia.
Qed.

Lemma supp_iff d v : supp d v = true <-> Supports d v.
Proof.
  unfold supp. split.
  - intros H t Ht. apply value_tag_iff in Ht. rewrite Ht in H. exact H.
  - intros H. destruct (value_tag v) as [t|] eqn:E; auto. apply H. now apply value_tag_iff.
Qed.

Lemma supp_false d v : supp d v = false <-> ~ Supports d v.
Proof. rewrite <- supp_iff. destruct (supp d v); split; intros; congruence. Qed.

(** ** Items of an area *)

Definition takesb (v : Value) : bool := match v with VText _ | VNewLine _ => true | _ => false end.
Definition fillableb (d : Dms) (a : Area) : bool :=
  negb (existsb takesb (ar_values a))
  && match ar_end a with
     | None => supp d VNewPage
     | Some (VTextRectangle _) => negb (rect_eqb (ar_rect a) (full_rect d))
     | Some _ => true
     end.

Lemma rect_eqb_iff a b : rect_eqb a b = true <-> a = b.
Proof.
  destruct a as [x y w h], b as [x' y' w' h']. unfold rect_eqb. cbn [rx ry rwidth rheight].
  rewrite !andb_true_iff, !Z.eqb_eq. split; [intros [[[-> ->] ->] ->]; auto|intros E; injection E; auto].
Qed.

Lemma takes_none vs : existsb takesb vs = false <-> forall v, In v vs -> ~ takes_room v.
Proof.
  split.
  - intros H v I T. assert (existsb takesb vs = true); [|congruence]. apply existsb_exists. exists v. split; auto.
    destruct v; try destruct T; reflexivity.
  - intros H. destruct (existsb takesb vs) eqn:E; auto. apply existsb_exists in E as (v & I & T).
    exfalso. apply (H v I). destruct v; try discriminate; exact Logic.I.
Qed.

Lemma lists_np d : supp d VNewPage = true <-> Lists d TNp.
Proof. reflexivity. Qed.

Lemma fillableb_iff d a : fillableb d a = true <-> Fillable d a.
Proof.
  unfold fillableb, Fillable. rewrite andb_true_iff, negb_true_iff, takes_none.
  destruct (ar_end a) as [v|]; [|rewrite lists_np; tauto].
  destruct v; try tauto. rewrite negb_true_iff. rewrite <- not_true_iff_false, rect_eqb_iff. unfold sign_rect, full_rect. tauto.
Qed.

Lemma fillableb_false d a : fillableb d a = false <-> ~ Fillable d a.
Proof. rewrite <- fillableb_iff. destruct (fillableb d a); split; intros; congruence. Qed.

Lemma plist_within d vs : forall n rf rs, Forall (Supports d) vs -> within_area vs ->
  plist d n rf (map Ok vs ++ rs)
  = map (fun v => Ok (PVal v)) vs
    ++ plist d (font_number d n vs) (if existsb takesb vs then None else rf) rs.
Proof.
  induction vs as [|v vs IH]; intros n rf rs HS HW; [reflexivity|].
  inversion HS as [|? ? Hv HS']; subst. cbn [map app plist]. apply supp_iff in Hv. rewrite Hv.
  assert (before_item d rf v = []) as ->.
  { assert (~ starts_area v) as N by (apply HW; now left). destruct v; try reflexivity; destruct N; exact I. }
  cbn [app]. f_equal. rewrite IH; auto. 2:{ intros u I. apply HW. now right. }
  f_equal. f_equal.
  - unfold font_number. cbn [in_force]. f_equal. destruct v as [| | | | | |[[? ?]|]| | | | | | | | | | | | | | |]; reflexivity.
  - cbn [existsb]. assert (~ starts_area v) as N by (apply HW; now left).
    destruct v; cbn [takesb next_rf orb]; try reflexivity; try (destruct (existsb takesb vs); reflexivity); destruct N; exact I.
Qed.

Definition area_items (d : Dms) (a : Area) : list (result PatValue SyntaxError) :=
  map (fun v => Ok (PVal v)) (ar_values a)
  ++ (if fillableb d a then [Ok (PFill (ar_rect a) (ar_font a))] else [])
  ++ match ar_end a with
     | Some v => [Ok (PVal v)]
     | None => if supp d VNewPage then [] else [Err (SUnsupportedTag (display VNewPage))]
     end.

Lemma extend_on d r : rect_ok r -> extend_width_height r (full_rect d) = text_rect d r.
Proof.
  intros (Hx & Hy & Hw & Hh). unfold u16 in *. unfold extend_width_height, text_rect, rect_on, full_rect, sat_sub, pixel_width, pixel_height.
  cbn [rx ry rwidth rheight]. f_equal.
  - destruct (Z.ltb_spec 0 (rwidth r)), (Z.eqb_spec (rwidth r) 0); lia.
  - destruct (Z.ltb_spec 0 (rheight r)), (Z.eqb_spec (rheight r) 0); lia.
Qed.

Lemma plist_areas d r n vs l : Areas d r n vs l -> Forall (Supports d) vs -> Forall value_ok vs ->
  plist d n (Some (r, n)) (map Ok vs) = flat_map (area_items d) l.
Proof.
  induction 1 as [r n vs HW|r n vs rest l HW HA IH|r n vs q rest l HW HA IH]; intros HS HV.
  - rewrite <- (app_nil_r (map Ok vs)), plist_within by auto. cbn [plist flat_map]. rewrite app_nil_r.
    unfold area_items, fillableb. cbn [ar_values ar_end ar_rect ar_font]. f_equal.
    destruct (existsb takesb vs), (supp d VNewPage); reflexivity.
  - apply Forall_app in HS as [HS1 HS2]. apply Forall_app in HV as [HV1 HV2].
    inversion HS2 as [|? ? HS0 HS3]; subst. inversion HV2 as [|? ? HV0 HV3]; subst.
    rewrite map_app. cbn [map]. rewrite plist_within by auto. cbn [plist]. pose proof HS0 as HS0'. apply supp_iff in HS0. rewrite HS0.
    cbn [before_item next_font next_rf flat_map]. unfold area_items at 1. cbn [ar_values ar_end ar_rect ar_font].
    rewrite <- app_assoc. f_equal. rewrite <- app_assoc. unfold fillableb. cbn [ar_values ar_end ar_rect ar_font].
    rewrite andb_true_r. change (full_rect d) with (sign_rect d). rewrite IH by auto.
    destruct (existsb takesb vs); reflexivity.
  - apply Forall_app in HS as [HS1 HS2]. apply Forall_app in HV as [HV1 HV2].
    inversion HS2 as [|? ? HS0 HS3]; subst. inversion HV2 as [|? ? HV0 HV3]; subst.
    rewrite map_app. cbn [map]. rewrite plist_within by auto. cbn [plist]. apply supp_iff in HS0. rewrite HS0.
    cbn [before_item next_font next_rf flat_map]. unfold area_items at 1. cbn [ar_values ar_end ar_rect ar_font].
    rewrite <- app_assoc. f_equal. rewrite <- app_assoc. unfold fillableb. cbn [ar_values ar_end ar_rect ar_font].
    rewrite (extend_on d q) by exact HV0. rewrite IH by auto.
    destruct (existsb takesb vs); cbn [fill_item_rect negb andb]; [reflexivity|].
    destruct (rect_eqb r (full_rect d)); reflexivity.
Qed.

(** ** Existence and uniqueness of areas *)

Lemma starts_dec v : {starts_area v} + {~ starts_area v}.
Proof. destruct v; cbn; auto. Qed.

Lemma within_split vs : within_area vs \/ exists a v b, vs = a ++ v :: b /\ within_area a /\ starts_area v.
Proof.
  induction vs as [|v vs IH]; [left; intros ? []|].
  destruct (starts_dec v) as [S|S]. { right. exists [], v, vs. splits; auto. intros ? []. }
  destruct IH as [W|(a & u & b & -> & W & Su)].
  - left. intros u [<-|I]; auto.
  - right. exists (v :: a), u, b. splits; auto. intros x [<-|I]; auto.
Qed.

Lemma Areas_exist d : forall k vs, (List.length vs <= k)%nat -> forall r n, exists l, Areas d r n vs l.
Proof.
  induction k as [|k IH]; intros vs Hk r n.
  - destruct vs; [|cbn in Hk; lia]. eexists. apply Ar_last. intros ? [].
  - destruct (within_split vs) as [W|(a & v & b & -> & W & S)]. { eexists. now apply Ar_last. }
    rewrite app_length in Hk. cbn in Hk.
    destruct v; try destruct S.
    + destruct (IH b ltac:(lia) (sign_rect d) (font_number d n a)) as [l Hl]. eexists. apply Ar_page; eauto.
    + destruct (IH b ltac:(lia) (text_rect d r0) (font_number d n a)) as [l Hl]. eexists. apply Ar_rect; eauto.
Qed.

Lemma within_first a v b a' v' b' : within_area a -> within_area a' -> starts_area v -> starts_area v' ->
  a ++ v :: b = a' ++ v' :: b' -> a = a' /\ v = v' /\ b = b'.
Proof.
  revert a'. induction a as [|x a IH]; intros [|x' a'] W W' S S' E; cbn in E.
  - injection E; auto.
  - injection E as -> E. exfalso. apply (W' x'); [now left|auto].
  - injection E as -> E. exfalso. apply (W v'); [now left|auto].
  - injection E as -> E. destruct (IH a') as (-> & -> & ->); auto.
    + intros u I. apply W. now right.
    + intros u I. apply W'. now right.
Qed.

Lemma within_no a v b : within_area (a ++ v :: b) -> starts_area v -> False.
Proof. intros W S. apply (W v); auto. apply in_or_app. right. now left. Qed.

Lemma Areas_fun d r n vs l : Areas d r n vs l -> forall l', Areas d r n vs l' -> l = l'.
Proof.
  induction 1 as [r n vs HW|r n vs rest l HW HA IH|r n vs q rest l HW HA IH]; intros l' H'.
  - inversion H'; subst; auto; exfalso; eapply within_no; eauto; exact I.
  - remember (vs ++ VNewPage :: rest) as ws eqn:E. destruct H' as [r n us W|r n us rest' l' W HA'|r n us q' rest' l' W HA'].
    + subst. exfalso. eapply within_no; eauto; exact I.
    + apply within_first in E as (-> & _ & ->); auto; try exact I. f_equal. auto.
    + apply within_first in E as (_ & E & _); auto; try exact I. discriminate E.
  - remember (vs ++ VTextRectangle q :: rest) as ws eqn:E. destruct H' as [r n us W|r n us rest' l' W HA'|r n us q' rest' l' W HA'].
    + subst. exfalso. eapply within_no; eauto; exact I.
    + apply within_first in E as (_ & E & _); auto; try exact I. discriminate E.
    + apply within_first in E as (-> & E & ->); auto; try exact I. injection E as ->. f_equal. auto.
Qed.
