(** Results of [widths] and [fill]. *)

From Coq Require Import String ZifyBool ZifyNat.
From Verif Require Import Base Str Multi Color Font Config Sign Pattern
  Spec_Multi Spec_Color Spec_Font Spec_Tfon Spec_Sign Spec_Render Spec_Layout Spec_Page Spec_Pattern
  Proofs_Str Proofs_Split Proofs_Norm Proofs_Iter Proofs_Sign Proofs_Pages Proofs_Place Proofs_Build Proofs_Blank
  Proofs_Print Proofs_Pattern.
Open Scope list_scope.
Ltac Zify.zify_post_hook ::= Z.div_mod_to_equations.

(** ** Areas of a sign *)

Definition area_good (d : Dms) (a : Area) : Prop := u16_rect (ar_rect a)
  /\ (Fillable d a -> ~ Endless d (ar_font a))
  /\ forall v, ar_end a = Some v -> starts_area v.

Lemma built_endless d n : Built d -> Endless d n -> n = 0.
Proof.
  intros HB (f & (E & pre & post & Et & _) & _ & H0 & _). destruct (Built_parts d HB) as (_ & V & _).
  destruct (Z.eq_dec n 0) as [|Hn]; auto. destruct V as [V _].
  destruct (V f) as (_ & H & _); [|unfold used_font; lia|lia]. rewrite Et, in_app_iff. cbn. auto.
Qed.

Lemma u16_sign d : Built d -> u16_rect (sign_rect d).
Proof.
  intros HB. pose proof (Built_vms d HB) as (_ & _ & Hw & Hh & _). unfold u16_rect, sign_rect.
  cbn [rx ry rwidth rheight]. unfold u16 in *. lia.
Qed.

Lemma u16_text d r : Built d -> rect_ok r -> u16_rect (text_rect d r).
Proof.
  intros HB (Hx & Hy & Hw & Hh). pose proof (Built_vms d HB) as (_ & _ & Sw & Sh & _).
  unfold u16_rect, text_rect, rect_on. cbn [rx ry rwidth rheight]. unfold u16 in *.
  destruct (rwidth r =? 0), (rheight r =? 0); lia.
Qed.

Lemma font_number_ends d vs : Built d -> ~ Endless d (default_font (d_multi_cfg d)) -> Forall value_ok vs ->
  forall n, ~ Endless d n -> ~ Endless d (font_number d n vs).
Proof.
  intros HB Hd HV. induction HV as [|v vs Hv HV IH]; intros n Hn; [exact Hn|]. unfold font_number in *. cbn [in_force].
  apply IH. destruct v as [| | | | | |[[m ?]|]| | | | | | | | | | | | | | |]; auto. cbn in Hv.
  intros HE. apply built_endless in HE; auto. lia.
Qed.

Lemma areas_shape d r n vs l : Built d -> Areas d r n vs l -> Forall value_ok vs -> u16_rect r ->
  Forall (fun a => u16_rect (ar_rect a) /\ forall v, ar_end a = Some v -> starts_area v) l.
Proof.
  intros HB. induction 1 as [r n vs HW|r n vs rest l HW HA IH|r n vs q rest l HW HA IH]; intros HV Hr.
  - constructor; [cbn [ar_rect ar_end]; split; auto; discriminate|constructor].
  - apply Forall_app in HV as [HV1 HV2]. inversion HV2; subst. constructor.
    + cbn [ar_rect ar_end]. split; auto. intros v E. injection E as <-. exact I.
    + apply IH; auto. now apply u16_sign.
  - apply Forall_app in HV as [HV1 HV2]. inversion HV2; subst. constructor.
    + cbn [ar_rect ar_end]. split; auto. intros v E. injection E as <-. exact I.
    + apply IH; auto. now apply u16_text.
Qed.

Lemma areas_end d r n vs l : Built d -> ~ Endless d (default_font (d_multi_cfg d)) -> Areas d r n vs l ->
  Forall value_ok vs -> ~ Endless d n -> Forall (fun a => ~ Endless d (ar_font a)) l.
Proof.
  intros HB Hd. induction 1 as [r n vs HW|r n vs rest l HW HA IH|r n vs q rest l HW HA IH]; intros HV Hn.
  - constructor; [exact Hn|constructor].
  - apply Forall_app in HV as [HV1 HV2]. inversion HV2; subst. constructor; [exact Hn|]. apply IH; auto.
    now apply font_number_ends.
  - apply Forall_app in HV as [HV1 HV2]. inversion HV2; subst. constructor; [exact Hn|]. apply IH; auto.
    now apply font_number_ends.
Qed.

Lemma areas_good d r n vs l : Built d -> ~ Endless d (default_font (d_multi_cfg d)) -> Areas d r n vs l ->
  Forall value_ok vs -> u16_rect r -> ~ Endless d n -> Forall (area_good d) l.
Proof.
  intros HB Hd HA HV Hr Hn. pose proof (areas_shape _ _ _ _ _ HB HA HV Hr) as H1.
  pose proof (areas_end _ _ _ _ _ HB Hd HA HV Hn) as H2. rewrite Forall_forall in *.
  intros a I. destruct (H1 a I). unfold area_good. splits; auto.
Qed.

Lemma area_room d a : Built d -> area_good d a -> Fillable d a ->
  exists n, rect_lines d (ar_rect a) (ar_font a) = Val n /\ Room d a n.
Proof.
  intros HB (Hr & Hn & _) HF. destruct (Built_parts d HB) as (T & V & F).
  destruct (rect_lines_cases d (ar_rect a) (ar_font a) T F Hr) as [X|(_ & X)]; auto.
  destruct (Hn HF). exact X.
Qed.

(** ** Widths *)

Fixpoint fills (l : list (result PatValue SyntaxError)) : list (Rectangle * Z) :=
  match l with
  | [] => []
  | Ok (PFill r f) :: l => (r, f) :: fills l
  | _ :: l => fills l
  end.

Fixpoint fill_widths (md : mode) (d : Dms) (l : list (Rectangle * Z)) (i : Z) (acc : list (Z * Z * Z)) : M (list (Z * Z * Z)) :=
  match l with
  | [] => Val acc
  | (r, f) :: l =>
      let! j := chk8 md (i + 1) in
      let! n := rect_lines d r f in
      fill_widths md d l j (acc ++ push_lines n (rwidth r, f, i))
  end.

Lemma widths_fills md d l : forall i acc, widths_loop md d (map Val l) i acc = fill_widths md d (fills l) i acc.
Proof.
  induction l as [|x l IH]; intros i acc; [reflexivity|]. cbn [map widths_loop bind]. destruct x as [[v|r f]|e]; cbn [fills fill_widths]; auto.
  unfold bind. destruct (chk8 md (i + 1)); auto. destruct (rect_lines d r f); auto.
Qed.

Lemma fills_app a b : fills (a ++ b) = fills a ++ fills b.
Proof. induction a as [|[[v|r f]|e] a IH]; cbn [fills app]; auto. now rewrite IH. Qed.

Lemma fills_vals (vs : list Value) : fills (map (fun v => Ok (PVal v)) vs) = [].
Proof. induction vs; auto. Qed.

Lemma fills_kept d rs vs : Kept d rs vs -> forall n rf, fills (plist d n rf rs) = fills (plist d n rf (map Ok vs)).
Proof.
  induction 1 as [|v rs vs HS HK IH|v rs vs HS HK IH|e rs vs HK IH]; intros n rf; [reflexivity| | |].
  - cbn [map plist]. apply supp_iff in HS. rewrite HS. rewrite !fills_app. cbn [fills]. now rewrite IH.
  - cbn [plist]. apply supp_false in HS. rewrite HS. cbn [fills]. auto.
  - cbn [plist fills]. auto.
Qed.

Lemma kept_exists d rs : exists vs, Kept d rs vs.
Proof.
  induction rs as [|[v|e] rs [vs IH]].
  - exists []. constructor.
  - destruct (supp d v) eqn:E.
    + exists (v :: vs). constructor; auto. now apply supp_iff.
    + exists vs. apply Kp_refused; auto. now apply supp_false.
  - exists vs. now constructor.
Qed.

Lemma kept_fun d rs vs : Kept d rs vs -> forall vs', Kept d rs vs' -> vs = vs'.
Proof.
  induction 1 as [|v rs vs HS HK IH|v rs vs HS HK IH|e rs vs HK IH]; intros vs' H'; inversion H'; subst; auto;
    try contradiction. f_equal. auto.
Qed.

Lemma kept_supported d rs vs : Kept d rs vs -> Forall (Supports d) vs.
Proof. induction 1; auto. Qed.

Lemma kept_ok d ms rs vs : Meaning ms rs -> Kept d rs vs -> Forall value_ok vs.
Proof.
  intros HM HK. apply oks_Parsable in HM. assert (forall v, In v vs -> In v (oks rs)) as HI.
  { clear HM. induction HK; cbn [oks]; auto.
    - intros u [<-|I]; [now left|right; auto].
    - intros u I. right. auto. }
  rewrite Forall_forall in *. intros v I. apply Parsable_ok. auto.
Qed.

Lemma fills_area d a : fills (area_items d a) = if fillableb d a then [(ar_rect a, ar_font a)] else [].
Proof.
  unfold area_items. rewrite !fills_app, fills_vals. cbn [app].
  assert (fills match ar_end a with Some v => [Ok (PVal v)] | None =>
            if supp d VNewPage then [] else [Err (SUnsupportedTag (display VNewPage))] end = []) as ->.
  { destruct (ar_end a); [reflexivity|]. destruct (supp d VNewPage); reflexivity. }
  rewrite app_nil_r. destruct (fillableb d a); reflexivity.
Qed.

Definition wrap_number (e : Z * Z * Z) : Z * Z * Z := let '(w, f, i) := e in (w, f, i mod 256).

Lemma map_repeat_wrap e n : map wrap_number (repeat e n) = repeat (wrap_number e) n.
Proof. induction n; cbn; congruence. Qed.

Lemma widths_areas d l : Built d -> Forall (area_good d) l -> forall i, 0 <= i ->
  exists k ws, Fillables d l k /\ 0 <= k /\ Widths d i l ws
    /\ (forall md acc, i + k <= 255 -> fill_widths md d (fills (flat_map (area_items d) l)) i acc = Val (acc ++ ws))
    /\ (forall acc, i <= 255 < i + k -> fill_widths Debug d (fills (flat_map (area_items d) l)) i acc = Panic)
    /\ (forall acc, fill_widths Release d (fills (flat_map (area_items d) l)) (i mod 256) acc
                    = Val (acc ++ map wrap_number ws)).
Proof.
  intros HB HG. induction HG as [|a l Ha HG IH]; intros i Hi.
  { exists 0, []. splits; try constructor; try lia; intros; cbn; rewrite ?app_nil_r; auto. }
  cbn [flat_map].
  destruct (fillableb d a) eqn:EF.
  - pose proof EF as HF. apply fillableb_iff in HF. destruct (area_room d a HB Ha HF) as (n & En & Rn).
    destruct (IH (i + 1) ltac:(lia)) as (k & ws & HK & Hk & HW & H1 & H2 & H3).
    exists (k + 1), (repeat (rwidth (ar_rect a), ar_font a, i) (Z.to_nat n) ++ ws).
    splits; auto; try lia; [now constructor|now constructor| | |].
    + intros md acc Hle. rewrite fills_app, fills_area, EF. cbn [app fill_widths].
      assert (chk8 md (i + 1) = Val (i + 1)) as ->.
      { unfold chk8, chk. destruct ((0 <=? i + 1) && (i + 1 <? 256)) eqn:E; [reflexivity|lia]. }
      cbn [bind]. rewrite En. cbn [bind]. rewrite H1 by lia. unfold push_lines. now rewrite app_assoc.
    + intros acc Hlt. rewrite fills_app, fills_area, EF. cbn [app fill_widths].
      destruct (Z.eq_dec i 255) as [->|N]; [reflexivity|].
      assert (chk8 Debug (i + 1) = Val (i + 1)) as ->.
      { unfold chk8, chk. destruct ((0 <=? i + 1) && (i + 1 <? 256)) eqn:E; [reflexivity|lia]. }
      cbn [bind]. rewrite En. cbn [bind]. apply H2. lia.
    + intros acc. rewrite fills_app, fills_area, EF. cbn [app fill_widths].
      assert (chk8 Release (i mod 256 + 1) = Val ((i + 1) mod 256)) as ->.
      { unfold chk8, chk. destruct ((0 <=? i mod 256 + 1) && (i mod 256 + 1 <? 256)) eqn:E; f_equal; lia. }
      cbn [bind]. rewrite En. cbn [bind]. rewrite H3. unfold push_lines.
      rewrite map_app, map_repeat_wrap, app_assoc. reflexivity.
  - destruct (IH i Hi) as (k & ws & HK & Hk & HW & H1 & H2 & H3). pose proof EF as HF. apply fillableb_false in HF.
    exists k, ws. splits; auto; [now constructor|now constructor| | |]; intros;
      rewrite fills_app, fills_area, EF; cbn [app]; auto.
Qed.

Lemma widths_fun d l : forall i ws ws', Widths d i l ws -> Widths d i l ws' -> ws = ws'.
Proof.
  induction l as [|a l IH]; intros i ws ws' H H'; inversion H; subst; inversion H'; subst; auto; try contradiction.
  - eauto.
  - f_equal.
    + assert (n = n0) as -> by (eapply RectLines_fun; eauto). reflexivity.
    + eauto.
Qed.

Lemma fillables_fun d l : forall k k', Fillables d l k -> Fillables d l k' -> k = k'.
Proof.
  induction l as [|a l IH]; intros k k' H H'; inversion H; subst; inversion H'; subst; auto; try contradiction.
  f_equal. auto.
Qed.

Lemma fill_widths_hang md d fl r f : In (r, f) fl -> rect_lines d r f = Hang ->
  forall i acc, 0 <= i -> (md = Release \/ i + Z.of_nat (List.length fl) <= 255) ->
  fill_widths md d fl i acc = Hang.
Proof.
  intros HI HH. induction fl as [|[r' f'] fl IH]; [destruct HI|]. intros i acc Hi Hb. cbn [fill_widths].
  assert (exists j, chk8 md (i + 1) = Val j /\ 0 <= j /\ (md = Release \/ j = i + 1)) as (j & -> & Hj & Hj').
  { unfold chk8, chk. destruct ((0 <=? i + 1) && (i + 1 <? 256)) eqn:E; [eexists; splits; eauto; lia|].
    destruct Hb as [->|Hb]; [|cbn [List.length] in Hb; lia]. eexists. splits; eauto. lia. }
  cbn [bind]. destruct HI as [HI|HI].
  - injection HI as -> ->. rewrite HH. reflexivity.
  - assert (rect_lines d r' f' <> Panic) as NP.
    { unfold rect_lines. destruct (font_lookup _ _); [|discriminate].
      assert (forall fuel lh ls h n, count_lines fuel lh ls h n <> Panic) as K.
      { clear. induction fuel; intros; cbn [count_lines]; [discriminate|]. destruct (_ <=? _); auto; discriminate. }
      destruct (_ =? _); [apply K|]. destruct (_ <? _); [discriminate|apply K]. }
    destruct (rect_lines d r' f'); [|contradiction|reflexivity]. cbn [bind]. apply IH; auto.
    cbn [List.length] in Hb. destruct Hb, Hj'; auto. right. lia.
Qed.

Lemma fills_areas_length d l k : Fillables d l k -> Z.of_nat (List.length (fills (flat_map (area_items d) l))) = k.
Proof.
  induction 1 as [|a l n HF H IH|a l n HF H IH]; [reflexivity| |]; cbn [flat_map]; rewrite fills_app, fills_area, app_length.
  - apply fillableb_false in HF. rewrite HF. cbn [List.length]. lia.
  - apply fillableb_iff in HF. rewrite HF. cbn [List.length]. lia.
Qed.

Lemma fillables_exist d l : exists k, Fillables d l k.
Proof.
  induction l as [|a l (k & IH)]; [exists 0; constructor|]. destruct (fillableb d a) eqn:E.
  - apply fillableb_iff in E. exists (k + 1). now constructor.
  - apply fillableb_false in E. exists k. now constructor.
Qed.

(** The values kept, their areas and the entries are determined by the pattern. *)
Lemma pattern_widths md d ms rs : Built d -> Meaning ms rs ->
  exists vs l k, Kept d rs vs /\ PatternAreas d vs l /\ Fillables d l k
    /\ ((exists a, In a l /\ Fillable d a /\ Endless d (ar_font a)) /\ pat_widths Release d ms = Hang
          /\ (k <= 255 -> pat_widths Debug d ms = Hang)
        \/ exists ws, Widths d 0 l ws
          /\ (k <= 255 -> pat_widths md d ms = Val ws)
          /\ (255 < k -> pat_widths Debug d ms = Panic)
          /\ pat_widths Release d ms = Val (map wrap_number ws)).
Proof.
  intros HB HM. destruct (kept_exists d rs) as [vs HK]. pose proof (kept_ok d ms rs vs HM HK) as HV.
  destruct (Areas_exist d (List.length vs) vs (le_n _) (sign_rect d) (default_font (d_multi_cfg d))) as [l HA].
  pose proof (areas_shape d _ _ _ _ HB HA HV (u16_sign d HB)) as HSh.
  destruct (fillables_exist d l) as (k & HFk). exists vs, l, k. splits; auto.
  assert (forall md, pat_widths md d ms = fill_widths md d (fills (flat_map (area_items d) l)) 0 []) as E.
  { intros md'. unfold pat_widths. rewrite (pat_items_val md' d ms rs HM), widths_fills, (fills_kept d rs vs HK).
    now rewrite (plist_areas d _ _ _ _ HA (kept_supported d rs vs HK) HV). }
  destruct (Built_parts d HB) as (T & V & F).
  assert ((exists a, In a l /\ Fillable d a /\ Endless d (ar_font a)) \/ Forall (area_good d) l) as [(a & Ia & Fa & Ea)|HG].
  { clear - HSh T F. induction HSh as [|a l [Hr Hs] HSh IH]; [right; constructor|].
    destruct IH as [(b & I & Fb & Eb)|IH]; [left; exists b; splits; auto; now right|].
    destruct (fillableb d a) eqn:EF.
    - apply fillableb_iff in EF. destruct (rect_lines_cases d (ar_rect a) (ar_font a) T F Hr) as [(n & En & _)|(_ & X)].
      + right. constructor; auto. unfold area_good. splits; auto. intros _ X.
        apply (rect_lines_hang d (ar_rect a)) in X; auto. congruence.
      + left. exists a. splits; auto. now left.
    - apply fillableb_false in EF. right. constructor; auto. unfold area_good. splits; auto. }
  - left. split; [exists a; auto|].
    assert (In (ar_rect a, ar_font a) (fills (flat_map (area_items d) l))) as IF.
    { clear - Ia Fa. induction l as [|b l IH]; [destruct Ia|]. cbn [flat_map]. rewrite fills_app, in_app_iff.
      destruct Ia as [->|Ia]; [left|right; auto]. rewrite fills_area. apply fillableb_iff in Fa. rewrite Fa. now left. }
    assert (rect_lines d (ar_rect a) (ar_font a) = Hang) as HH.
    { apply rect_lines_hang; auto. rewrite Forall_forall in HSh. apply (HSh a Ia). }
    rewrite !E. split.
    + eapply fill_widths_hang; eauto. lia.
    + intros Hk. eapply fill_widths_hang; eauto; [lia|]. right. rewrite (fills_areas_length d l k HFk). lia.
  - right. destruct (widths_areas d l HB HG 0 ltac:(lia)) as (k' & ws & HF & Hk & HW & H1 & H2 & H3).
    pose proof (fillables_fun d l _ _ HF HFk) as ->. exists ws. splits; auto; intros; rewrite E.
    + apply (H1 md []). lia.
    + apply H2. lia.
    + apply (H3 []).
Qed.

(** ** Filling *)

Definition font_val_of (fv : option (option (Z * option Z))) : list Value :=
  match fv with Some f => [VFont f] | None => [] end.

Fixpoint fonts_after (vs : list Value) (fv : option (option (Z * option Z))) :=
  match vs with
  | [] => fv
  | VFont f :: vs => fonts_after vs (Some f)
  | _ :: vs => fonts_after vs fv
  end.

Lemma fill_vals d vs : forall r fv lines ms,
  fill_loop d (map Val (map (fun v => Ok (PVal v)) vs ++ r)) fv lines ms
  = fill_loop d (map Val r) (fonts_after vs fv) lines (ms ++ written (without_fonts vs)).
Proof.
  induction vs as [|v vs IH]; intros r fv lines ms.
  - cbn. now rewrite app_nil_r.
  - cbn [map app fill_loop bind]. destruct v; rewrite IH; cbn [fonts_after without_fonts filter is_font negb];
      try reflexivity; unfold written; cbn [map List.concat]; now rewrite app_assoc.
Qed.

Lemma fonts_after_app a b fv : fonts_after (a ++ b) fv = fonts_after b (fonts_after a fv).
Proof. revert fv. induction a as [|v a IH]; intros fv; [reflexivity|]. destruct v; cbn [app fonts_after]; auto. Qed.

Lemma last_font_after vs : last_font vs = font_val_of (fonts_after vs None).
Proof.
  unfold last_font.
  assert (forall fv, in_force (fun v => if is_font v then Some [v] else None) (font_val_of fv) vs
                     = font_val_of (fonts_after vs fv)) as H; [|exact (H None)].
  induction vs as [|v vs IH]; intros fv; [reflexivity|]. cbn [in_force fonts_after].
  destruct v; cbn [is_font]; auto. apply (IH (Some f)).
Qed.

Lemma fill_lines_spec : forall k first lines ms, exists used rest t,
  lines = used ++ rest /\ List.length used = Nat.min k (List.length lines)
  /\ Interspersed (lit "[nl]") used t
  /\ fill_lines k first lines ms
     = (ms ++ (if first then t else match used with [] => [] | _ => lit "[nl]" ++ t end), rest).
Proof.
  induction k as [|k IH]; intros first lines ms.
  - exists [], lines, []. cbn [fill_lines List.length Nat.min]. splits; auto; [constructor|].
    destruct first; now rewrite app_nil_r.
  - destruct lines as [|x lines].
    + exists [], [], []. cbn [fill_lines]. splits; auto; [constructor|]. destruct first; now rewrite app_nil_r.
    + cbn [fill_lines]. destruct (IH false lines ((if first then ms else ms ++ lit "[nl]") ++ x))
        as (used & rest & t & -> & EL & HI & E).
      rewrite E. exists (x :: used), rest.
      destruct used as [|y used].
      * inversion HI; subst. exists x. splits; auto; [cbn in *; lia|constructor|].
        rewrite app_nil_r. destruct first; now rewrite <- ?app_assoc.
      * exists (x ++ lit "[nl]" ++ t). splits; auto; [cbn [List.length Nat.min app]; cbn [List.length app] in EL; rewrite EL; reflexivity|now constructor|].
        destruct first; now rewrite <- ?app_assoc.
Qed.

Lemma end_values_fonts d a : area_good d a -> without_fonts (end_values a) = end_values a
  /\ forall fv, fonts_after (end_values a) fv = fv.
Proof.
  intros (_ & _ & H). unfold end_values. destruct (ar_end a) as [v|]; [|auto].
  specialize (H v eq_refl). destruct v; try destruct H; auto.
Qed.

Lemma written_app a b : written (a ++ b) = written a ++ written b.
Proof. unfold written. now rewrite map_app, concat_app. Qed.

Lemma Room_nonneg d a n : Room d a n -> 0 <= n.
Proof. intros H. inversion H as [|? ? ? ? [L _]| |? ? ? ? ? [L _]]; subst; try lia; destruct L as [L|L]; lia. Qed.

Lemma written_one v : written [v] = display v.
Proof. unfold written. cbn [map List.concat]. apply app_nil_r. Qed.
Lemma written_nil : written [] = [].
Proof. reflexivity. Qed.

Lemma fill_areas d l : Built d -> Forall (area_good d) l -> Lists d TNp -> forall since fv lines ms,
  fv = fonts_after since None ->
  exists s, Filled d since l lines s
    /\ fill_loop d (map Val (flat_map (area_items d) l)) fv lines ms = Val (ms ++ s).
Proof.
  intros HB HG HNP. induction HG as [|a l Ha HG IH]; intros since fv lines ms Hfv.
  { exists []. split; [constructor|]. cbn. now rewrite app_nil_r. }
  assert (forall items fv lines ms, fill_loop d (map Val ((match ar_end a with Some v => [Ok (PVal v)]
               | None => if supp d VNewPage then [] else [Err (SUnsupportedTag (display VNewPage))] end) ++ items)) fv lines ms
          = fill_loop d (map Val items) fv lines (ms ++ written (end_values a))) as EE.
  { intros items fv0 lines0 ms0. destruct (end_values_fonts d a Ha) as [E1 E2].
    rewrite <- E1. rewrite <- (E2 fv0) at 2. rewrite <- fill_vals. unfold end_values.
    destruct (ar_end a); [reflexivity|]. apply lists_np in HNP. rewrite HNP. reflexivity. }
  cbn [flat_map]. unfold area_items at 1. rewrite <- !app_assoc. rewrite fill_vals.
  assert (fonts_after (ar_values a) fv = fonts_after (since ++ ar_values a) None) as Ef.
  { now rewrite fonts_after_app, <- Hfv. }
  rewrite Ef. destruct (fillableb d a) eqn:EF.
  - pose proof EF as HF. apply fillableb_iff in HF. destruct (area_room d a HB Ha HF) as (n & En & Rn).
    cbn [app map fill_loop bind]. rewrite En. cbn [bind].
    destruct (fill_lines_spec (Z.to_nat n) true lines (ms ++ written (without_fonts (ar_values a))))
      as (used & rest & t & -> & EL & HI & E).
    rewrite E. rewrite EE.
    destruct (IH [] None rest ((match fonts_after (since ++ ar_values a) None with
        | Some fv0 => ((ms ++ written (without_fonts (ar_values a))) ++ t) ++ display (VFont fv0)
        | None => (ms ++ written (without_fonts (ar_values a))) ++ t end) ++ written (end_values a)) eq_refl)
      as (s & HFd & Es).
    rewrite Es. pose proof (Room_nonneg d a n Rn) as Hn. eexists. split.
    + eapply (Fd_fill d since a l n used rest t s); auto.
      * rewrite app_length in EL. lia.
      * rewrite app_length in EL. destruct (Z.eq_dec (Z.of_nat (List.length used)) n) as [|N]; auto. right.
        destruct rest; auto. cbn [List.length] in EL.
        lia.
    + f_equal. rewrite last_font_after, written_app.
      destruct (fonts_after (since ++ ar_values a) None); cbn [font_val_of];
        rewrite ?written_one, ?written_nil, <- ?app_assoc; reflexivity.
  - apply fillableb_false in EF. cbn [app]. rewrite EE.
    destruct (IH (since ++ ar_values a) (fonts_after (since ++ ar_values a) None) lines
       ((ms ++ written (without_fonts (ar_values a))) ++ written (end_values a)) eq_refl) as (s & HFd & Es).
    rewrite Es. eexists. split; [apply Fd_other; eauto|]. rewrite written_app, <- !app_assoc. reflexivity.
Qed.

Lemma fill_errors d rs : Built d -> ~ Endless d (default_font (d_multi_cfg d)) -> forall n rf fv lines ms,
  ~ Endless d n -> (forall r f, rf = Some (r, f) -> u16_rect r /\ ~ Endless d f) -> Forall (fun r => forall v, r = Ok v -> value_ok v) rs ->
  ((exists e, In (Err e) rs) \/ (exists v, In (Ok v) rs /\ ~ Supports d v) \/ ~ Lists d TNp) ->
  fill_loop d (map Val (plist d n rf rs)) fv lines ms = Val [].
Proof.
  intros HB Hd. destruct (Built_parts d HB) as (T & V & F).
  induction rs as [|r rs IH]; intros n rf fv lines ms Hn Hrf HV HE.
  - cbn [plist]. destruct HE as [(e & [])|[(v & [] & _)|HE]].
    rewrite <- lists_np in HE. destruct (supp d VNewPage); [contradiction|]. reflexivity.
  - inversion HV as [|? ? Hv HVs]; subst. cbn [plist]. destruct r as [v|e]; [|reflexivity].
    specialize (Hv v eq_refl). destruct (supp d v) eqn:ES; [|reflexivity]. apply supp_iff in ES.
    assert ((exists e, In (Err e) rs) \/ (exists v, In (Ok v) rs /\ ~ Supports d v) \/ ~ Lists d TNp) as HE'.
    { destruct HE as [(e & [D|I])|[(u & [D|I] & U)|HE]]; eauto; [discriminate|]. injection D as <-. contradiction. }
    assert (forall fv lines ms, fill_loop d (map Val (Ok (PVal v) :: plist d (next_font d n v) (next_rf d n rf v) rs)) fv lines ms = Val []) as K.
    { intros. change (Ok (PVal v) :: ?x) with (map (fun v => Ok (PVal v)) [v] ++ x). rewrite fill_vals. apply IH; auto.
      - destruct v as [| | | | | |[[m ?]|]| | | | | | | | | | | | | | |]; cbn [next_font]; auto. cbn in Hv.
        intros X. apply built_endless in X; auto. lia.
      - intros q f Eq. destruct v; cbn [next_rf] in Eq; try (apply (Hrf _ _ Eq)); try discriminate Eq.
        + injection Eq as <- <-. split; auto. now apply u16_sign.
        + injection Eq as <- <-. split; auto. cbn in Hv. rewrite extend_on by auto. now apply u16_text. }
    assert (forall r f fv lines ms, rf = Some (r, f) ->
        fill_loop d (map Val (Ok (PFill r f) :: Ok (PVal v) :: plist d (next_font d n v) (next_rf d n rf v) rs)) fv lines ms = Val []) as K2.
    { intros q f fv0 lines0 ms0 E. destruct (Hrf q f E) as [Hq Hf].
      destruct (rect_lines_cases d q f T F Hq) as [(k & Ek & _)|(_ & X)]; [|now destruct Hf].
      cbn [map]. cbn [fill_loop bind]. rewrite Ek. cbn [bind]. destruct (fill_lines _ true lines0 ms0) as [s ls].
      change (Val (Ok (PVal v)) :: map Val ?x) with (map (@Val (result PatValue SyntaxError)) (Ok (PVal v) :: x)). apply K. }
    destruct v; cbn [before_item app]; try apply K.
    + destruct rf as [[q f]|]; cbn [fill_item app]; [now apply K2|apply K].
    + destruct rf as [[q f]|]; cbn [fill_item_rect app]; [|apply K].
      destruct (rect_eqb q (full_rect d)); cbn [app]; [apply K|now apply K2].
Qed.

Lemma Interspersed_fun sep l s : Interspersed sep l s -> forall s', Interspersed sep l s' -> s = s'.
Proof. induction 1; intros z H'; inversion H'; subst; auto. do 2 f_equal. auto. Qed.

Lemma filled_fun d l : forall since lines s s', Filled d since l lines s -> Filled d since l lines s' -> s = s'.
Proof.
  induction l as [|a l IH]; intros since lines s s' H H'.
  - inversion H; subst. inversion H'; subst. auto.
  - remember (a :: l) as al eqn:E. destruct H as [|since a1 l1 lines s NF HF|since a1 l1 n used rest t s F R U1 U2 I HF]; [discriminate| |].
    + injection E as -> ->. inversion H'; subst; [|contradiction]. f_equal. eauto.
    + injection E as -> ->. remember (used ++ rest) as lines eqn:EL. remember (a :: l) as al eqn:E.
      destruct H' as [|since a1 l1 lines s' NF HF'|since a1 l1 n' used' rest' t' s' F' R' U1' U2' I' HF']; [discriminate| |].
      * injection E as -> ->. contradiction.
      * injection E as -> ->. assert (n = n') as <- by (eapply RectLines_fun; eauto).
        assert (used' = used /\ rest' = rest) as [-> ->].
        { assert (List.length used' = List.length used) as El.
          { apply (f_equal (@List.length _)) in EL. rewrite !app_length in EL.
            destruct U2 as [U2|U2], U2' as [U2'|U2']; subst; cbn [List.length] in *; try lia. }
          clear - El EL. revert used EL El. induction used' as [|x u IH]; intros [|y w] EL El; cbn in *; try discriminate; auto.
          injection EL as -> EL. injection El as El. destruct (IH w EL El) as [-> ->]. auto. }
        rewrite (Interspersed_fun _ _ _ I _ I'). rewrite (IH _ _ _ _ HF HF'). reflexivity.
Qed.

Lemma pattern_fill md d ms vs l lines : Built d -> ~ Endless d (default_font (d_multi_cfg d)) ->
  Meaning ms (map Ok vs) -> Forall (Supports d) vs -> Lists d TNp -> PatternAreas d vs l ->
  exists s, Filled d [] l lines s /\ pat_fill md d ms lines = Val s.
Proof.
  intros HB Hd HM HS HNP HA. pose proof (Meaning_oks_ok _ _ HM) as HV.
  pose proof (areas_good d _ _ _ _ HB Hd HA HV (u16_sign d HB) Hd) as HG.
  destruct (fill_areas d l HB HG HNP [] None lines [] eq_refl) as (s & HF & E). exists s. split; auto.
  unfold pat_fill. rewrite (pat_items_val md d ms _ HM), (plist_areas d _ _ _ _ HA HS HV). exact E.
Qed.

Lemma pattern_fill_refused md d ms rs lines : Built d -> ~ Endless d (default_font (d_multi_cfg d)) -> Meaning ms rs ->
  ((exists e, In (Err e) rs) \/ (exists v, In (Ok v) rs /\ ~ Supports d v) \/ ~ Lists d TNp) ->
  pat_fill md d ms lines = Val [].
Proof.
  intros HB Hd HM HE. unfold pat_fill. rewrite (pat_items_val md d ms _ HM). apply fill_errors; auto.
  - intros r f E. injection E as <- <-. split; auto. now apply u16_sign.
  - apply oks_Parsable in HM. rewrite Forall_forall in *. intros r I v ->. apply Parsable_ok. apply HM.
    clear - I. induction rs as [|r rs IH]; [destruct I|].
    destruct I as [->|I]; [now left|]. destruct r; cbn [oks]; [right|]; auto.
Qed.

(** ** No lines *)

Lemma last_font_cases vs : last_font vs = [] /\ (forall v, In v vs -> is_font v = false)
  \/ exists x f y, vs = x ++ VFont f :: y /\ last_font vs = [VFont f].
Proof.
  induction vs as [|v vs IH] using rev_ind; [left; split; [reflexivity|intros ? []]|].
  assert (last_font (vs ++ [v]) = if is_font v then [v] else last_font vs) as E.
  { rewrite !last_font_after, fonts_after_app. destruct v; reflexivity. }
  rewrite E. destruct (is_font v) eqn:Ev.
  - right. destruct v; try discriminate. exists vs, f, []. auto.
  - destruct IH as [[-> H]|(x & f & y & -> & ->)].
    + left. split; auto. intros u I. apply in_app_or in I as [I|[<-|[]]]; auto.
    + right. exists x, f, (y ++ [v]). split; auto. now rewrite <- app_assoc.
Qed.

Lemma without_fonts_id vs : (forall v, In v vs -> is_font v = false) -> without_fonts vs = vs.
Proof.
  induction vs as [|v vs IH]; intros H; [reflexivity|]. unfold without_fonts in *. cbn [filter].
  rewrite (H v) by now left. cbn [negb]. f_equal. apply IH. intros u I. apply H. now right.
Qed.

Lemma fonts_last_area d l a : FontsLast d l -> In a l ->
  without_fonts (ar_values a) ++ last_font (ar_values a) = ar_values a
  /\ (~ Fillable d a -> without_fonts (ar_values a) = ar_values a /\ last_font (ar_values a) = []).
Proof.
  intros H I. specialize (H a I). destruct (last_font_cases (ar_values a)) as [[E N]|(x & f & y & E & EL)].
  - rewrite E, without_fonts_id by auto. rewrite app_nil_r. auto.
  - destruct (H x f y E) as [-> HF]. split; [|contradiction]. rewrite EL, E. unfold without_fonts.
    rewrite filter_app. cbn [filter is_font negb]. rewrite app_nil_r.
    fold (without_fonts x). rewrite without_fonts_id; auto.
    intros v Iv. destruct (is_font v) eqn:Ev; auto. exfalso. destruct v; try discriminate.
    apply in_split in Iv as (x1 & x2 & ->). rewrite <- app_assoc in E. cbn [app] in E.
    destruct (H _ _ _ E) as [E0 _]. destruct x2; discriminate.
Qed.

Lemma areas_values d r n vs l : Areas d r n vs l -> flat_map (fun a => ar_values a ++ end_values a) l = vs.
Proof.
  induction 1 as [r n vs HW|r n vs rest l HW HA IH|r n vs q rest l HW HA IH]; cbn [flat_map ar_values end_values ar_end];
    rewrite ?app_nil_r; auto; rewrite IH, <- app_assoc; reflexivity.
Qed.

Lemma filled_none d l : FontsLast d l -> forall since s, last_font since = [] -> Filled d since l [] s ->
  s = written (flat_map (fun a => ar_values a ++ end_values a) l).
Proof.
  induction l as [|a l IH]; intros HL since s Hs H.
  { inversion H. reflexivity. }
  assert (FontsLast d l) as HL' by (intros b I; apply HL; now right).
  destruct (fonts_last_area d (a :: l) a HL (or_introl eq_refl)) as [E1 E2]. cbn [flat_map].
  assert (last_font (since ++ ar_values a) = last_font (ar_values a)) as EL.
  { rewrite !last_font_after, fonts_after_app in *. destruct (fonts_after since None) eqn:E; [|reflexivity].
    exfalso. discriminate Hs. }
  inversion H as [|? ? ? ? s' NF HF|? ? ? n used rest t s' F R U1 U2 I HF]; subst.
  - destruct (E2 NF) as [E3 E4]. rewrite E3. rewrite (IH HL' _ s' ltac:(rewrite EL; auto) HF). now rewrite !written_app.
  - match goal with E : _ ++ _ = [] |- _ => apply app_eq_nil in E as [-> ->] end. inversion I; subst. cbn [app].
    rewrite (IH HL' [] s' eq_refl HF). rewrite EL, !written_app, !app_assoc. do 2 f_equal.
    rewrite <- written_app. now rewrite E1.
Qed.
