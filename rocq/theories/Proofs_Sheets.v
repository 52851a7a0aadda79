(** Proofs for C93: the first pages of a pattern. *)

From Coq Require Import String Lia.
From Verif Require Import Base Str Multi Color Raster Font Graphic Config Sign Pattern
  Spec_Multi Spec_Color Spec_Font Spec_Graphic Spec_Sign Spec_Render Spec_Layout Spec_Page Spec_Pattern Spec_Reached
  Proofs_Str Proofs_Norm Proofs_Pages Proofs_Sign Proofs_Place Proofs_Pattern Proofs_Fill Proofs_Reached.
From Verif Require Spec_Fail Proofs_Fail.
Open Scope list_scope.

Definition turned (a : Area) : Area := mkArea (ar_rect a) (ar_font a) (ar_values a) (Some VNewPage).

Lemma turned_fillable d a : Lists d TNp -> ar_end a = None -> Fillable d a <-> Fillable d (turned a).
Proof. intros L E. unfold Fillable, turned. cbn [ar_values ar_end]. rewrite E. tauto. Qed.

Lemma areas_turned d r n vs l : Areas d r n vs l -> exists l0 a, l = l0 ++ [a] /\ ar_end a = None
  /\ forall rest l2, Areas d (sign_rect d) (font_number d (ar_font a) (ar_values a)) rest l2 ->
     Areas d r n (vs ++ VNewPage :: rest) (l0 ++ turned a :: l2).
Proof.
  induction 1 as [r n vs W|r n vs rest l W _ (l0 & a & -> & E & IH)|r n vs q rest l W _ (l0 & a & -> & E & IH)].
  - exists [], (mkArea r n vs None). splits; auto. intros rest l2 H. cbn [app]. unfold turned. cbn [ar_rect ar_font ar_values] in *.
    now apply Ar_page.
  - exists (mkArea r n vs (Some VNewPage) :: l0), a. splits; auto. intros rest' l2 H. cbn [app]. rewrite <- app_assoc. cbn [app].
    apply Ar_page; auto.
  - exists (mkArea r n vs (Some (VTextRectangle q)) :: l0), a. splits; auto. intros rest' l2 H. cbn [app]. rewrite <- app_assoc. cbn [app].
    apply Ar_rect; auto.
Qed.

Lemma areas_longer d vs rest l l' : PatternAreas d vs l -> PatternAreas d (vs ++ VNewPage :: rest) l' ->
  exists l0 a l2, l = l0 ++ [a] /\ ar_end a = None /\ l' = l0 ++ turned a :: l2.
Proof.
  intros H H'. destruct (areas_turned _ _ _ _ _ H) as (l0 & a & E & EN & HA).
  destruct (Areas_exist d (List.length rest) rest (le_n _) (sign_rect d) (font_number d (ar_font a) (ar_values a))) as [l2 H2].
  exists l0, a, l2. splits; auto. exact (Areas_fun _ _ _ _ _ H' _ (HA _ _ H2)).
Qed.

(** ** Widths *)

Lemma widths_longer d a l2 : Lists d TNp -> ar_end a = None -> forall l0 i w ws,
  Widths d i (l0 ++ [a]) w -> Widths d i (l0 ++ turned a :: l2) ws -> exists more, ws = w ++ more.
Proof.
  intros L E. pose proof (turned_fillable d a L E) as HT.
  induction l0 as [|b l0 IH]; intros i w ws H H'; cbn [app] in *.
  - inversion H as [|? ? ? ? NF W|? ? ? ? ? F R W]; subst; inversion H' as [|? ? ? ? NF' W'|? ? ? ? ? F' R' W']; subst; try tauto;
      inversion W; subst; [eexists; reflexivity|].
    assert (n = n0) as -> by (eapply RectLines_fun; eauto). rewrite app_nil_r. cbn [turned ar_rect ar_font]. eauto.
  - inversion H as [|? ? ? ? NF W|? ? ? ? ? F R W]; subst; inversion H' as [|? ? ? ? NF' W'|? ? ? ? ? F' R' W']; subst; try tauto.
    + eauto.
    + assert (n = n0) as -> by (eapply RectLines_fun; eauto). destruct (IH _ _ _ W W') as (more & ->). exists more. now rewrite app_assoc.
Qed.

Lemma kept_app d rs rs' vs : Kept d (rs ++ rs') vs -> exists a b, vs = a ++ b /\ Kept d rs a /\ Kept d rs' b.
Proof.
  revert vs. induction rs as [|x rs IH]; intros vs H; [exists [], vs; splits; auto; constructor|].
  cbn [app] in H. inversion H as [|v ? us S K|v ? us S K|e ? us K]; subst; destruct (IH _ K) as (a & b & -> & HA & HB).
  - exists (v :: a), b. splits; auto. now constructor.
  - exists a, b. splits; auto. now apply Kp_refused.
  - exists a, b. splits; auto. now constructor.
Qed.

Lemma np_kept d rs vs : Lists d TNp -> Kept d (Ok VNewPage :: rs) vs -> exists us, vs = VNewPage :: us.
Proof.
  intros L H. assert (S : Supports d VNewPage) by (apply supp_iff, lists_np; exact L).
  inversion H; subst; [eauto|contradiction].
Qed.

Lemma val_widths md d ms rs ws : Built d -> Meaning ms rs -> pat_widths md d ms = Val ws ->
  exists vs l us, Kept d rs vs /\ PatternAreas d vs l /\ Widths d 0 l us /\ ws = map numbered_u8 us.
Proof.
  intros HB HM E. destruct (kept_exists d rs) as (vs & HK).
  destruct (Areas_exist d (List.length vs) vs (le_n _) (sign_rect d) (default_font (d_multi_cfg d))) as [l HA].
  assert (HR : Spec_Fail.Reading ms rs false) by now apply Proofs_Fail.meaning_reading.
  assert (HW : WidthsAre md d l false (pat_widths md d ms)) by (eapply pattern_widths_all; eauto; reflexivity).
  rewrite E in HW. inversion HW; subst. eauto 8.
Qed.

Lemma widths_sheets md d a ms rs rs' w ws : Built d -> Lists d TNp -> Meaning a rs -> Meaning ms (rs ++ Ok VNewPage :: rs') ->
  pat_widths md d a = Val w -> pat_widths md d ms = Val ws -> exists more, ws = w ++ more.
Proof.
  intros HB L HA HM E E'. destruct (val_widths _ _ _ _ _ HB HA E) as (vs & l & us & K & P & W & ->).
  destruct (val_widths _ _ _ _ _ HB HM E') as (vs' & l' & us' & K' & P' & W' & ->).
  apply kept_app in K' as (x & y & -> & Kx & Ky). assert (x = vs) as -> by (eapply kept_fun; eauto).
  destruct (np_kept _ _ _ L Ky) as (z & ->). destruct (areas_longer _ _ _ _ _ P P') as (l0 & b & l2 & -> & EN & ->).
  destruct (widths_longer d b l2 L EN l0 0 us us' W W') as (more & ->). exists (map numbered_u8 more). apply map_app.
Qed.

(** ** Filling *)

Lemma used_fun {A} (used used' rest rest' : list A) n : used ++ rest = used' ++ rest' ->
  Z.of_nat (List.length used) <= n -> Z.of_nat (List.length used) = n \/ rest = [] ->
  Z.of_nat (List.length used') <= n -> Z.of_nat (List.length used') = n \/ rest' = [] -> used' = used /\ rest' = rest.
Proof.
  intros EL U1 U2 U1' U2'. assert (El : List.length used' = List.length used).
  { apply (f_equal (@List.length _)) in EL. rewrite !app_length in EL.
    destruct U2 as [U2|U2], U2' as [U2'|U2']; subst; cbn [List.length] in *; try lia. }
  clear - El EL. revert used EL El. induction used' as [|x u IH]; intros [|y w] EL El; cbn in *; try discriminate; auto.
  injection EL as -> EL. injection El as El. destruct (IH w EL El) as [-> ->]. auto.
Qed.

Lemma written_app a b : written (a ++ b) = written a ++ written b.
Proof. unfold written. now rewrite map_app, concat_app. Qed.

Lemma filled_longer d a l2 : Lists d TNp -> ar_end a = None -> forall l0 since lines s t,
  Filled d since (l0 ++ [a]) lines s -> Filled d since (l0 ++ turned a :: l2) lines t -> exists r, t = s ++ lit "[np]" ++ r.
Proof.
  intros L E. pose proof (turned_fillable d a L E) as HT.
  assert (EE : end_values a = []) by (unfold end_values; now rewrite E).
  assert (EW : written (end_values (turned a)) = lit "[np]") by reflexivity.
  induction l0 as [|b l0 IH]; intros since lines s t H H'; cbn [app] in *.
  - remember [a] as al eqn:EA. remember (turned a :: l2) as bl eqn:EB.
    destruct H as [|since a1 l1 lines s NF HF|since a1 l1 n used rest u s F R U1 U2 I HF]; [discriminate| |]; injection EA as -> ->;
      inversion HF; subst.
    + inversion H' as [|? ? ? ? ? NF' HF'|? ? ? ? ? ? ? ? F' R' U1' U2' I' HF']; subst; [|tauto].
      rewrite EE, app_nil_r, app_nil_r, written_app, EW. cbn [turned ar_values]. rewrite <- app_assoc. eexists; reflexivity.
    + remember (used ++ rest) as lines eqn:EL. remember (turned a :: l2) as bl eqn:EB.
      destruct H' as [|since a1 l1 lines s' NF' HF'|since a1 l1 n' used' rest' u' s' F' R' U1' U2' I' HF']; [discriminate| |]; injection EB as -> ->; [tauto|].
      assert (n = n') as <- by (eapply RectLines_fun; eauto).
      destruct (used_fun used used' rest rest' n (eq_sym EL) U1 U2 U1' U2') as [-> ->]. rewrite (Interspersed_fun _ _ _ I _ I').
      rewrite EE, app_nil_r, !app_nil_r, written_app, EW. cbn [turned ar_values]. eexists. rewrite <- !app_assoc. reflexivity.
  - remember (b :: l0 ++ [a]) as al eqn:EA. remember (b :: l0 ++ turned a :: l2) as bl eqn:EB.
    destruct H as [|since a1 l1 lines s NF HF|since a1 l1 n used rest u s F R U1 U2 I HF]; [discriminate| |]; injection EA as -> ->.
    + subst bl. inversion H' as [|? ? ? ? ? NF' HF'|? ? ? ? ? ? ? ? F' R' U1' U2' I' HF']; subst; [|tauto].
      destruct (IH _ _ _ _ HF HF') as (r & ->). exists r. now rewrite <- !app_assoc.
    + remember (used ++ rest) as lines eqn:EL.
      destruct H' as [|since a1 l1 lines s' NF' HF'|since a1 l1 n' used' rest' u' s' F' R' U1' U2' I' HF']; [discriminate| |]; injection EB as -> ->; [tauto|].
      assert (n = n') as <- by (eapply RectLines_fun; eauto).
      destruct (used_fun used used' rest rest' n (eq_sym EL) U1 U2 U1' U2') as [-> ->]. rewrite (Interspersed_fun _ _ _ I _ I').
      destruct (IH _ _ _ _ HF HF') as (r & ->). exists r. now rewrite <- !app_assoc.
Qed.

Lemma val_fill md d ms rs lines s : Built d -> Lists d TNp -> Meaning ms rs -> pat_fill md d ms lines = Val s ->
  (s = [] /\ exists vs rest, FitPart d rs vs rest /\ rest <> [])
  \/ exists vs l, rs = map Ok vs /\ Forall (Supports d) vs /\ PatternAreas d vs l /\ Filled d [] l lines s.
Proof.
  intros HB L HM E. assert (HR : Spec_Fail.Reading ms rs false) by now apply Proofs_Fail.meaning_reading.
  pose proof (pattern_fill_all md d ms rs false lines HB HR) as H. rewrite E in H.
  inversion H; subst; try congruence; try contradiction.
  - left. eauto 6.
  - right. match goal with F : FitPart _ _ _ [] |- _ => destruct F as (-> & S & _) end. rewrite app_nil_r. eauto 8.
Qed.

Lemma fill_sheets md d a ms rs rs' lines s t : Built d -> Lists d TNp -> Meaning a rs -> Meaning ms (rs ++ Ok VNewPage :: rs') ->
  pat_fill md d a lines = Val s -> pat_fill md d ms lines = Val t -> t = [] \/ exists r, t = s ++ lit "[np]" ++ r.
Proof.
  intros HB L HA HM E E'.
  destruct (val_fill _ _ _ _ _ _ HB L HM E') as [(-> & _)|(vs' & l' & EV & S' & P' & F')]; [auto|]. right.
  symmetry in EV. apply map_eq_app in EV as (vs & zs & -> & EV & EZ). destruct zs as [|z zs]; [discriminate|]. injection EZ as -> EZ.
  destruct (val_fill _ _ _ _ _ _ HB L HA E) as [(-> & vs2 & rest & HF & NR)|(vs2 & l & EV2 & S & P & F)].
  - exfalso. apply Forall_app in S' as [S' _].
    assert (HF' : FitPart d rs vs []) by (unfold FitPart; rewrite app_nil_r; auto).
    destruct (fit_fun _ _ _ _ _ _ HF HF') as [_ ->]. auto.
  - assert (vs2 = vs) as ->. { apply (f_equal oks) in EV2. rewrite <- EV, !oks_map_Ok in EV2. auto. }
    destruct (areas_longer _ _ _ _ _ P P') as (l0 & b & l2 & -> & EN & ->). eapply filled_longer; eauto.
Qed.
