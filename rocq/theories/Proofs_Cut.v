(** The items of patterns, also of those with a tag whose reading panics. *)

From Coq Require Import String ZifyBool ZifyNat.
From Verif Require Import Base Str Multi Color Font Config Sign Pattern
  Spec_Multi Spec_Color Spec_Font Spec_Tfon Spec_Sign Spec_Render Spec_Layout Spec_Page Spec_Pattern
  Proofs_Str Proofs_Split Proofs_Norm Proofs_Iter Proofs_Sign Proofs_Pages Proofs_Place Proofs_Build Proofs_Blank
  Proofs_Pattern Proofs_Fill.
From Verif Require Spec_Fail Proofs_Fail.
Open Scope list_scope.
Ltac Zify.zify_post_hook ::= Z.div_mod_to_equations.

(** The items before the end of a pattern. *)
Fixpoint pbody (d : Dms) (n : Z) (rf : RF) (rs : list (result Value SyntaxError))
  : list (result PatValue SyntaxError) :=
  match rs with
  | [] => []
  | Err e :: r => Err e :: pbody d n rf r
  | Ok v :: r =>
      if supp d v then
        before_item d rf v ++ Ok (PVal v) :: pbody d (next_font d n v) (next_rf d n rf v) r
      else Err (SUnsupportedTag (display v)) :: pbody d n rf r
  end.

Lemma ms_next_panics md m xs : Reads m (Panic :: xs) -> ms_next md m = Panic.
Proof.
  intros (ts & (a & b & Hs & Ho & HT) & E). destruct ts as [|t ts]; [discriminate|]. cbn [map] in E. injection E as E1 ->.
  inversion HT as [|t' rest ts' HK HT' E2]; subst. destruct m as [s off]. cbn [ms_str ms_off] in *. subst.
  destruct (next_slice_token md (a ++ t ++ rest) (len a) a (t ++ rest)) as (t2 & rest2 & Hr & Hn & HK2 & E); auto.
  { pose proof (Token_nonempty _ _ HK). destruct t; [congruence|discriminate]. }
  destruct (Token_unique _ _ _ _ HK HK2 Hr) as [<- <-].
  unfold ms_next. rewrite E. cbn [bind]. now rewrite <- E1.
Qed.

Lemma pat_items_pbody md d rs xs : forall fuel m n rf, Reads m (map Val rs ++ Panic :: xs) ->
  (2 * List.length rs + 2 <= fuel)%nat ->
  pat_items_fuel md d fuel (mkPat m None n rf false) = map Val (pbody d n rf rs) ++ [Panic].
Proof.
  induction rs as [|r rs IH]; intros fuel m n rf HR HF.
  - destruct fuel as [|fuel]; [cbn in HF; lia|].
    cbn [pat_items_fuel]. unfold pat_next. cbn [p_end p_value p_pattern]. now rewrite (ms_next_panics md m _ HR).
  - cbn [map app] in HR. destruct (ms_next_reads md m r _ HR) as (m' & E & HR'). cbn [List.length] in HF.
    destruct fuel as [|fuel]; [lia|]. cbn [pat_items_fuel]. unfold pat_next at 1. cbn [p_end p_value p_pattern].
    rewrite E. cbn [bind]. destruct r as [v|e]; cbn [pbody].
    + destruct (supp d v) eqn:ES.
      * destruct (pat_step_supp d (mkPat m None n rf false) m' v ES eq_refl) as (pv & EP & Epv).
        cbn [p_font_num p_rect_font] in EP, Epv. rewrite EP.
        destruct (before_item d rf v) as [|x [|y l]] eqn:EB.
        -- cbn [app map]. subst pv. f_equal. apply IH; auto. lia.
        -- subst pv. cbn [app map]. f_equal. destruct fuel as [|fuel]; [lia|]. cbn [pat_items_fuel]. unfold pat_next at 1.
           cbn [p_end p_value p_pattern p_font_num p_rect_font]. f_equal. apply IH; auto. lia.
        -- exfalso. destruct v; cbn [before_item] in EB; try discriminate.
           ++ destruct rf as [[? ?]|]; discriminate EB.
           ++ destruct rf as [[? ?]|]; cbn in EB; [destruct (rect_eqb _ _)|]; discriminate EB.
      * unfold pat_step. cbn [p_font_num p_rect_font].
        assert (match value_tag v with Some tag => negb (contains_tag (supported_multi_tags (d_multi_cfg d)) tag) | None => false end = true) as ->.
        { unfold supp in ES. destruct (value_tag v); [now rewrite ES|discriminate]. }
        cbn [map app]. f_equal. apply IH; auto. lia.
    + cbn [map app p_font_num p_rect_font]. f_equal. apply IH; auto. lia.
Qed.

Lemma reading_length ms rs cut : Spec_Fail.Reading ms rs cut -> (List.length rs <= List.length ms)%nat.
Proof.
  intros (ts & more & HT & HD & _). assert (List.length rs = List.length ts) as -> by (clear - HD; induction HD; cbn; congruence). clear HD rs.
  assert (List.length (ts ++ more) <= List.length ms)%nat; [|rewrite app_length in *; lia].
  induction HT as [|t rest us HK HT IH]; [reflexivity|]. rewrite app_length. cbn [List.length].
  pose proof (Token_nonempty _ _ HK). destruct t; [congruence|]. cbn [List.length]. lia.
Qed.

Lemma pat_items_cut md d ms rs : Spec_Fail.Reading ms rs true ->
  pat_items md d ms = map Val (pbody d (default_font (d_multi_cfg d))
                                 (Some (sign_rect d, default_font (d_multi_cfg d))) rs) ++ [Panic].
Proof.
  intros H. pose proof (reading_length _ _ _ H) as HL. apply Proofs_Fail.reading_reads in H as (xs & HR & tl & -> & u & ->).
  unfold pat_items, pat_new. eapply pat_items_pbody; [exact HR|lia].
Qed.

(** ** The items and the areas *)

Lemma pbody_within d vs : forall n rf rs, Forall (Supports d) vs -> within_area vs ->
  pbody d n rf (map Ok vs ++ rs)
  = map (fun v => Ok (PVal v)) vs
    ++ pbody d (font_number d n vs) (if existsb takesb vs then None else rf) rs.
Proof.
  induction vs as [|v vs IH]; intros n rf rs HS HW; [reflexivity|].
  inversion HS as [|? ? Hv HS']; subst. cbn [map app pbody]. apply supp_iff in Hv. rewrite Hv.
  assert (before_item d rf v = []) as ->.
  { assert (~ starts_area v) as N by (apply HW; now left). destruct v; try reflexivity; destruct N; exact I. }
  cbn [app]. f_equal. rewrite IH; auto. 2:{ intros u I. apply HW. now right. }
  f_equal. f_equal.
  - unfold font_number. cbn [in_force]. f_equal. destruct v as [| | | | | |[[? ?]|]| | | | | | | | | | | | | | |]; reflexivity.
  - cbn [existsb]. assert (~ starts_area v) as N by (apply HW; now left).
    destruct v; cbn [takesb next_rf orb]; try reflexivity; try (destruct (existsb takesb vs); reflexivity); destruct N; exact I.
Qed.

Lemma pbody_areas d r n vs l : Areas d r n vs l -> Forall (Supports d) vs -> Forall value_ok vs ->
  exists l' a, l = l' ++ [a]
    /\ pbody d n (Some (r, n)) (map Ok vs) = flat_map (area_items d) l' ++ map (fun v => Ok (PVal v)) (ar_values a).
Proof.
  induction 1 as [r n vs HW|r n vs rest l HW HA IH|r n vs q rest l HW HA IH]; intros HS HV.
  - exists [], (mkArea r n vs None). split; auto. rewrite <- (app_nil_r (map Ok vs)), pbody_within by auto.
    cbn [pbody flat_map ar_values app]. apply app_nil_r.
  - apply Forall_app in HS as [HS1 HS2]. apply Forall_app in HV as [HV1 HV2].
    inversion HS2 as [|? ? HS0 HS3]; subst. inversion HV2 as [|? ? HV0 HV3]; subst.
    destruct (IH HS3 HV3) as (l' & a & -> & E). exists (mkArea r n vs (Some VNewPage) :: l'), a. split; auto.
    rewrite map_app. cbn [map]. rewrite pbody_within by auto. cbn [pbody]. apply supp_iff in HS0. rewrite HS0.
    cbn [before_item next_font next_rf flat_map]. unfold area_items at 1. cbn [ar_values ar_end ar_rect ar_font].
    rewrite <- !app_assoc. f_equal. unfold fillableb. cbn [ar_values ar_end ar_rect ar_font].
    rewrite andb_true_r. change (full_rect d) with (sign_rect d). rewrite E.
    destruct (existsb takesb vs); reflexivity.
  - apply Forall_app in HS as [HS1 HS2]. apply Forall_app in HV as [HV1 HV2].
    inversion HS2 as [|? ? HS0 HS3]; subst. inversion HV2 as [|? ? HV0 HV3]; subst.
    destruct (IH HS3 HV3) as (l' & a & -> & E). exists (mkArea r n vs (Some (VTextRectangle q)) :: l'), a. split; auto.
    rewrite map_app. cbn [map]. rewrite pbody_within by auto. cbn [pbody]. apply supp_iff in HS0. rewrite HS0.
    cbn [before_item next_font next_rf flat_map]. unfold area_items at 1. cbn [ar_values ar_end ar_rect ar_font].
    rewrite <- !app_assoc. f_equal. unfold fillableb. cbn [ar_values ar_end ar_rect ar_font].
    rewrite (extend_on d q) by exact HV0. rewrite E.
    destruct (existsb takesb vs); cbn [fill_item_rect negb andb]; [reflexivity|].
    destruct (rect_eqb r (full_rect d)); reflexivity.
Qed.
