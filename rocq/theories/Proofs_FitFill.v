(** Proofs for C64: lines that fit the widths of a pattern. *)

From Coq Require Import String.
From Verif Require Import Base Str Multi Color Raster Font Graphic Config Sign Render Pattern
  Spec_Multi Spec_Color Spec_Font Spec_Graphic Spec_Sign Spec_Render Spec_Layout Spec_Draw Spec_Page Spec_Safe Spec_Fail
  Spec_Pattern Spec_Fit
  Proofs_Str Proofs_Split Proofs_Norm Proofs_Print Proofs_Font Proofs_Sign Proofs_Build Proofs_Pattern Proofs_Fill Proofs_Lines
  Proofs_Page Proofs_Unique Proofs_Fit Proofs_Grow Proofs_Grown Proofs_Hex Proofs_Count.
From Coq Require Import ZifyBool ZifyNat.
Ltac Zify.zify_post_hook ::= Z.div_mod_to_equations.
Open Scope list_scope.

(** ** What a filled pattern says *)

Lemma meaning_cons t rest r rs : Token t rest -> TokenDenotes t r -> Meaning rest rs -> Meaning (t ++ rest) (r :: rs).
Proof. intros HT HD (ts & H1 & H2). exists (t :: ts). split; constructor; auto. Qed.

(** The value that the print of a value reads as. *)
Definition reprint (v : Value) : Value :=
  match v with VHexadecimalCharacter c => VHexadecimalCharacter (decimal_as_hex c) | _ => v end.

Lemma reprint_reread v : printable_hex v -> reread v = Ok (reprint v).
Proof. destruct v; cbn; auto. intros H. destruct (Z.ltb_spec c 10000); auto; lia. Qed.
Lemma reprint_id v : (forall c, v <> VHexadecimalCharacter c) -> reprint v = v.
Proof. destruct v; auto. intros H. now destruct (H c). Qed.
Lemma reprint_ids vs : (forall c, ~ In (VHexadecimalCharacter c) vs) -> map reprint vs = vs.
Proof.
  induction vs as [|v vs IH]; intros H; [reflexivity|]. cbn [map]. rewrite IH, reprint_id; auto.
  - intros c ->. apply (H c). now left.
  - intros c I. apply (H c). now right.
Qed.

Lemma reprint_token v rest : Parsable v -> printable_hex v ->
  (forall t, v = VText t -> plain t -> at_boundary rest) ->
  Token (display v) rest /\ TokenDenotes (display v) (Ok (reprint v)).
Proof.
  intros HP HS HB. destruct HP as [| |t Hn Hp Hc|b v Hp HD].
  - split; constructor.
  - split; constructor.
  - rewrite display_text by auto. split; constructor; eauto.
  - destruct (display_reread v b Hp HD) as (b' & Hp' & -> & HD'). rewrite reprint_reread in HD' by auto. split; auto. now constructor.
Qed.

Lemma display_begins v rest : Parsable v -> (forall t, v = VText t -> ~ plain t) -> at_boundary (display v ++ rest).
Proof.
  intros HP HB. right. destruct HP as [| |t Hn Hp Hc|b v Hp HD].
  - exists 91, (91 :: rest). split; [reflexivity|now left].
  - exists 93, (93 :: rest). split; [reflexivity|now right].
  - exfalso. now apply (HB t).
  - destruct (display_reread v b Hp HD) as (b' & Hp' & -> & HD'). exists 91, ((b' ++ [93]) ++ rest).
    split; [reflexivity|now left].
Qed.

Lemma written_meaning vs : forall rest rs, Forall Parsable vs -> Forall printable_hex vs ->
  (forall x t u y, vs = x ++ VText t :: VText u :: y -> ~ (plain t /\ plain u)) ->
  ((exists t, In (VText t) vs) -> at_boundary rest) ->
  Meaning rest (map Ok rs) -> Meaning (written vs ++ rest) (map Ok (map reprint vs ++ rs)).
Proof.
  induction vs as [|v vs IH]; intros rest rs HP HS HA HB HM; [exact HM|].
  apply Forall_cons_iff in HP as [Hp HP]. apply Forall_cons_iff in HS as [Hs HS].
  change (v :: vs) with ([v] ++ vs) at 1. rewrite written_app, written_one, <- app_assoc. cbn [app map].
  assert (HM' : Meaning (written vs ++ rest) (map Ok (map reprint vs ++ rs))).
  { apply IH; auto.
    - intros x t u y E. apply (HA (v :: x) t u y). now rewrite E.
    - intros (t & I). apply HB. exists t. now right. }
  destruct (reprint_token v (written vs ++ rest) Hp Hs) as [HT HD]; [|now apply meaning_cons].
  intros t -> Ht. destruct vs as [|u us].
  - apply HB. exists t. now left.
  - change (u :: us) with ([u] ++ us). rewrite written_app, written_one, <- app_assoc.
    apply Forall_cons_iff in HP as [Hu _].
    apply display_begins; auto. intros w -> Hw. apply (HA [] t w us); auto.
Qed.

(** Without lines the result is a print of values, among them all the
    hexadecimal characters; when it renders they are printable. *)
Lemma filled_written d since l s : forall lines, Filled d since l lines s -> lines = [] ->
  Forall Parsable since -> Forall (fun a => Forall Parsable (ar_values a ++ end_values a)) l ->
  exists zs, s = written zs /\ Forall Parsable zs
    /\ forall a c, In a l -> In (VHexadecimalCharacter c) (ar_values a) -> In (VHexadecimalCharacter c) zs.
Proof.
  assert (HL : forall vs, Forall Parsable vs -> Forall Parsable (last_font vs)).
  { intros vs H. destruct (last_font_cases vs) as [[-> _]|(x & f & y & -> & ->)]; [constructor|].
    constructor; [|constructor]. rewrite Forall_forall in H. apply H, in_elt. }
  assert (HW : forall vs, Forall Parsable vs -> Forall Parsable (without_fonts vs)).
  { intros vs H. unfold without_fonts. apply Forall_forall. intros v I. apply filter_In in I as [I _]. rewrite Forall_forall in H. auto. }
  assert (HX : forall vs c, In (VHexadecimalCharacter c) vs -> In (VHexadecimalCharacter c) (without_fonts vs)).
  { intros vs c I. unfold without_fonts. apply filter_In. auto. }
  intros lines H. induction H as [since lines|since a l lines s NF H IH|since a l n used rest t s F R U1 U2 HI H IH];
    intros E HS HP.
  - exists []. splits; auto; intros a c [].
  - apply Forall_cons_iff in HP as [Ha HP]. apply Forall_app in Ha as [Ha1 Ha2].
    destruct (IH E) as (zs & -> & HZ & HC); auto; [now apply Forall_app|].
    exists (without_fonts (ar_values a) ++ end_values a ++ zs). splits.
    + now rewrite !written_app, <- !app_assoc.
    + rewrite !Forall_app. auto.
    + intros b c [<-|I] J; rewrite !in_app_iff; eauto.
  - apply app_eq_nil in E as [-> ->]. apply Forall_cons_iff in HP as [Ha HP]. apply Forall_app in Ha as [Ha1 Ha2].
    destruct (IH eq_refl) as (zs & -> & HZ & HC); auto. inversion HI; subst.
    exists (without_fonts (ar_values a) ++ (last_font (since ++ ar_values a) ++ end_values a) ++ zs). splits.
    + rewrite !written_app, <- !app_assoc. reflexivity.
    + rewrite !Forall_app. splits; auto. apply HL. apply Forall_app; auto.
    + intros b c [<-|I] J; rewrite !in_app_iff; eauto.
Qed.

Lemma open_boundary rest : at_open_or_end rest -> at_boundary rest.
Proof. intros [->|(r & ->)]; [now left|]. right. exists 91, r. split; auto. now left. Qed.

Lemma txt_meaning l rest rs : plain l -> Forall text_char l -> at_boundary rest -> Meaning rest (map Ok rs) ->
  Meaning (l ++ rest) (map Ok (txt l ++ rs)).
Proof.
  intros H1 H2 HB HM. destruct l as [|c l]; [exact HM|]. cbn [txt app map].
  apply (meaning_cons (c :: l)); auto; constructor; auto; discriminate.
Qed.

Lemma lines_meaning used t : Interspersed (lit "[nl]") used t ->
  Forall (fun l => plain l /\ Forall text_char l) used -> forall rest rs, at_open_or_end rest ->
  Meaning rest (map Ok rs) -> Meaning (t ++ rest) (map Ok (line_values used ++ rs)).
Proof.
  induction 1 as [|s|s s' l r HI IH]; intros HF rest rs HO HM.
  - exact HM.
  - apply Forall_cons_iff in HF as [[F1 F2] _]. cbn [line_values]. apply txt_meaning; auto. now apply open_boundary.
  - apply Forall_cons_iff in HF as [[F1 F2] HF]. rewrite line_values_cons, <- !app_assoc. cbn [app].
    apply txt_meaning; auto; [apply open_boundary, lit_open|]. cbn [map].
    destruct (nl_token (r ++ rest)) as [T1 T2]. apply meaning_cons; auto.
Qed.

(** ** One area *)

Section Fit.
Variable d : Dms.
Hypothesis HB : Built d.
Hypothesis HNL : Lists d TNl.

Definition font_fits (fs : Z * option Z) : Prop :=
  forall k f, snd fs = Some k -> FirstFont (d_fonts d) (fst fs) f -> k = font_version_id f.

Lemma all_fit_cut e n ws used rest : AllFit d (repeat e n ++ ws) (used ++ rest) ->
  (List.length used <= n)%nat -> (List.length used = n \/ rest = []) ->
  Forall (LineFits d e) used /\ AllFit d ws rest.
Proof.
  intros H L E. split.
  - apply Forall_forall. intros t I. apply In_nth_error in I as (i & Ei).
    assert (i < List.length used)%nat by (apply nth_error_Some; congruence).
    apply (H i); [|rewrite nth_error_app1; auto]. rewrite nth_error_app1 by (rewrite repeat_length; lia).
    apply nth_error_repeat. lia.
  - intros i e' t E1 E2. destruct E as [E| ->]; [|destruct i; discriminate E2].
    apply (H (n + i)%nat).
    + rewrite nth_error_app2 by (rewrite repeat_length; lia). rewrite repeat_length. now replace (n + i - n)%nat with i by lia.
    + rewrite nth_error_app2 by lia. now replace (n + i - List.length used)%nat with i by lia.
Qed.

Lemma font_number_none n vs : (forall v, In v vs -> is_font v = false) -> font_number d n vs = n.
Proof.
  intros H. apply (in_force_ok (fun x => x = n)); auto. intros v y I E. specialize (H v I). destruct v; discriminate.
Qed.
Lemma says_font_none fs vs : (forall v, In v vs -> is_font v = false) -> in_force (says_font d) fs vs = fs.
Proof.
  intros H. apply (in_force_ok (fun x => x = fs)); auto. intros v y I E. specialize (H v I). destruct v; discriminate.
Qed.

Lemma last_font_number vs : forall fs, fst (in_force (says_font d) fs (last_font vs)) = font_number d (fst fs) vs.
Proof.
  induction vs as [|v vs IH] using rev_ind; intros fs; [reflexivity|].
  assert (last_font (vs ++ [v]) = if is_font v then [v] else last_font vs) as ->.
  { unfold last_font. rewrite in_force_snoc. destruct v; reflexivity. }
  unfold font_number in *. rewrite in_force_snoc. destruct v; cbn [is_font]; auto. destruct f as [[n k]|]; reflexivity.
Qed.

Lemma without_fonts_none vs v : In v (without_fonts vs) -> is_font v = false /\ In v vs.
Proof. unfold without_fonts. intros I. apply filter_In in I as [I E]. split; auto. now destruct (is_font v). Qed.

Lemma last_font_since since vs : last_font since = [] -> last_font (since ++ vs) = last_font vs.
Proof. unfold last_font. intros E. rewrite in_force_app. now rewrite E. Qed.

Lemma last_font_sub vs v : In v (last_font vs) -> In v vs /\ is_font v = true.
Proof.
  destruct (last_font_cases vs) as [[-> _]|(x & f & y & -> & ->)]; [intros []|]. intros [<-|[]]. split; auto. apply in_elt.
Qed.

Lemma fit_quiet v : fit_value d v -> quiet v.
Proof. destruct v as [| | | | | | | | | | | | | |[n|]| | | | | | |]; cbn; auto. Qed.

Lemma lines_supported used : Forall (Supports d) (line_values used).
Proof.
  apply Forall_forall. intros v I. apply line_values_in in I as [->|(t & -> & _)]; intros tg W; inversion W; subst; auto.
Qed.
Lemma lines_quiet used : Forall quiet (line_values used).
Proof. apply Forall_forall. intros v I. apply line_values_in in I as [->|(t & -> & _)]; exact Logic.I. Qed.
Lemma lines_within used : within_area (line_values used).
Proof. intros v I. apply line_values_in in I as [->|(t & -> & _)]; intros []. Qed.

Lemma within_app a b : within_area a -> within_area b -> within_area (a ++ b).
Proof. intros H1 H2 v I. apply in_app_or in I as [I|I]; auto. Qed.
Lemma within_sub a b : within_area b -> (forall v, In v a -> In v b) -> within_area a.
Proof. intros H S v I. apply H. auto. Qed.

Lemma reprint_font v : is_font (reprint v) = is_font v.
Proof. now destruct v. Qed.
Lemma reprint_within vs : within_area vs -> within_area (map reprint vs).
Proof. intros H v I. apply in_map_iff in I as (u & <- & I). specialize (H u I). destruct u; auto. Qed.
Lemma reprint_quiet vs : Forall (fit_value d) vs -> Forall quiet (map reprint vs).
Proof.
  intros H. rewrite Forall_forall in *. intros v I. apply in_map_iff in I as (u & <- & I). apply H, fit_quiet in I. now destruct u.
Qed.
Lemma reprint_supports vs : Forall (Supports d) vs -> Forall (Supports d) (map reprint vs).
Proof.
  intros H. rewrite Forall_forall in *. intros v I. apply in_map_iff in I as (u & <- & I). specialize (H u I).
  destruct u; auto. intros t W. inversion W; subst. apply H. constructor.
Qed.

Definition Next (a : Area) (l : list Area) (fs : Z * option Z) (since : list Value) (lines : list str) (s0 s1 : str)
    (i : Z) (ws : list (Z * Z * Z)) : Prop :=
  exists x y since' lines' s0' s1' i' ws',
    Filled d since' l [] s0' /\ Filled d since' l lines' s1' /\ Widths d i' l ws' /\ AllFit d ws' lines'
    /\ (List.length lines' <= List.length lines)%nat /\ last_font since' = []
    /\ AreaG d (ar_rect a) fs x y /\ within_area x /\ within_area y
    /\ Forall quiet x /\ Forall quiet y /\ Forall (Supports d) y
    /\ fst (in_force (says_font d) fs x) = font_number d (ar_font a) (ar_values a)
    /\ font_fits (in_force (says_font d) fs x)
    /\ (forall rs, Meaning s0' (map Ok rs) -> Meaning s0 (map Ok (x ++ end_values a ++ rs)))
    /\ (forall rs, Meaning s1' (map Ok rs) -> Meaning s1 (map Ok (y ++ end_values a ++ rs))).

Lemma area_next a l fs since lines s0 s1 i ws :
  Filled d since (a :: l) [] s0 -> Filled d since (a :: l) lines s1 -> Widths d i (a :: l) ws -> AllFit d ws lines ->
  (List.length lines <= 256)%nat -> last_font since = [] -> fst fs = ar_font a -> font_fits fs ->
  within_area (ar_values a) -> Forall (fit_value d) (ar_values a) -> fit_area d a ->
  Forall Parsable (ar_values a ++ end_values a) -> Forall printable_hex (ar_values a ++ end_values a) ->
  Forall (Supports d) (ar_values a) ->
  (forall x t u y, without_fonts (ar_values a) = x ++ VText t :: VText u :: y -> ~ (plain t /\ plain u)) ->
  area_good d a -> (ar_end a = None -> l = []) ->
  Next a l fs since lines s0 s1 i ws.
Proof.
  intros F0 F1 HW HA HL HS Hn Hfs Hwi Hfit Hfa HP HX Hsup Hap Hg Hend.
  apply Forall_app in HP as [HP1 HP2]. apply Forall_app in HX as [HX1 HX2].
  assert (HEND : forall since lines s, Filled d since l lines s -> ar_end a = None -> s = []).
  { intros since' lines' s H E. rewrite (Hend E) in H. now inversion H. }
  assert (HEM : forall s rs, (ar_end a = None -> s = []) -> Meaning s (map Ok rs) ->
      Meaning (written (end_values a) ++ s) (map Ok (end_values a ++ rs))).
  { intros s rs E HM. assert (map reprint (end_values a) = end_values a) as ER.
    { apply reprint_ids. intros c I. unfold end_values in I. destruct (ar_end a) as [v|] eqn:EA; [|destruct I].
      destruct I as [->|[]]. destruct Hg as (_ & _ & Hg). apply (Hg _ EA). }
    rewrite <- ER at 2. apply written_meaning; auto.
    - intros x t u y EE. unfold end_values in EE. destruct (ar_end a); destruct x as [|? [|? ?]]; discriminate EE.
    - intros (t & I). exfalso. unfold end_values in I. destruct (ar_end a) as [v|] eqn:EA; [|destruct I].
      destruct I as [->|[]]. destruct Hg as (_ & _ & Hg). apply (Hg _ EA). }
  assert (HOP : forall s, (ar_end a = None -> s = []) -> at_open_or_end (written (end_values a) ++ s)).
  { intros s E. now apply (end_open d). }
  rewrite Forall_forall in Hfit.
  inversion F0 as [|? ? ? ? s0' NF F0' E0|? ? ? n used rest t s0' F R U1 U2 HI F0' E0]; subst.
  - (* not filled *)
    inversion F1 as [|? ? ? ? s1' NF1 F1' E1|]; subst; [|contradiction].
    inversion HW as [|? ? ? ? NF2 HW' EW|]; subst; [|contradiction].
    assert (HNo : forall v, In v (ar_values a) -> is_font v = false).
    { intros v I. destruct (is_font v) eqn:E; auto. exfalso. destruct v; try discriminate E. apply NF. destruct Hfa as [Hfa _]. eauto. }
    pose proof (without_fonts_id _ HNo) as EWF. rewrite EWF in *.
    assert (HM : forall since' lines' s rs, Filled d since' l lines' s -> Meaning s (map Ok rs) ->
      Meaning (written (ar_values a ++ end_values a) ++ s) (map Ok (map reprint (ar_values a) ++ end_values a ++ rs))).
    { intros since' lines' s rs HFd HM. rewrite written_app, <- app_assoc. apply written_meaning; auto.
      - intros _. apply open_boundary, HOP. eauto.
      - apply HEM; eauto. }
    exists (map reprint (ar_values a)), (map reprint (ar_values a)), (since ++ ar_values a), lines, s0', s1', i, ws. splits; auto.
    + rewrite last_font_since by auto. destruct (last_font_cases (ar_values a)) as [[E _]|(x & f & y & E & _)]; auto.
      exfalso. rewrite E in HNo. specialize (HNo (VFont f) (in_elt _ _ _)). discriminate.
    + apply AG_same.
    + now apply reprint_within.
    + now apply reprint_within.
    + apply reprint_quiet, Forall_forall; auto.
    + apply reprint_quiet, Forall_forall; auto.
    + now apply reprint_supports.
    + rewrite says_font_none, font_number_none; auto. intros v I. apply in_map_iff in I as (u & <- & I). rewrite reprint_font. auto.
    + rewrite says_font_none; auto. intros v I. apply in_map_iff in I as (u & <- & I). rewrite reprint_font. auto.
    + intros rs Hrs. eapply HM; eauto.
    + intros rs Hrs. eapply HM; eauto.
  - (* filled *)
    match goal with E : _ ++ _ = [] |- _ => apply app_eq_nil in E as [-> ->] end. inversion HI; subst. cbn [app].
    inversion F1 as [|? ? ? ? s1' NF1 F1' E1|? ? ? n1 used rest t s1' F' R1 U1' U2' HI' F1' E1]; subst; [contradiction|].
    inversion HW as [|? ? ? ? NF2 HW' EW|? ? ? n2 ws' F2 R2 HW' EW]; subst; [contradiction|].
    assert (n1 = n) as -> by (eapply RectLines_fun; eauto). assert (n2 = n) as -> by (eapply RectLines_fun; eauto).
    pose proof (Room_nonneg d a n R) as Hn0.
    apply all_fit_cut in HA as [HAu HAr]; [|lia|destruct U2'; [left; lia|now right]].
    rewrite !(last_font_since since) by auto.
    set (pre := without_fonts (ar_values a)) in *. set (post := last_font (ar_values a)) in *.
    assert (HRoom : Forall room_left pre).
    { apply Forall_forall. intros v I. apply without_fonts_none in I as [E I].
      destruct F as [F _]. specialize (F v I). destruct Hfa as [_ Hfa]. specialize (Hwi v I).
      destruct v; try discriminate E; try exact Logic.I; try (exfalso; apply F; exact Logic.I); try (exfalso; apply Hwi; exact Logic.I).
      exfalso. eapply Hfa; eauto. }
    assert (HPost : Forall (fun v => is_font v = true) post).
    { apply Forall_forall. intros v I. now apply last_font_sub in I. }
    assert (Hpre_in : forall v, In v pre -> In v (ar_values a)) by (intros v I; now apply without_fonts_none in I).
    assert (Hpost_in : forall v, In v post -> In v (ar_values a)) by (intros v I; now apply last_font_sub in I).
    assert (Hwi1 : within_area pre) by (now apply (within_sub _ (ar_values a))).
    assert (Hwi2 : within_area post) by (now apply (within_sub _ (ar_values a))).
    assert (Qpre : Forall quiet pre) by (apply Forall_forall; intros v I; apply fit_quiet; auto).
    assert (Qpost : Forall quiet post) by (apply Forall_forall; intros v I; apply fit_quiet; auto).
    rewrite Forall_forall in HP1, HX1, Hsup.
    assert (Spre : Forall (Supports d) pre) by (apply Forall_forall; auto).
    assert (Spost : Forall (Supports d) post) by (apply Forall_forall; auto).
    assert (HPF : forall s rs, at_open_or_end s -> Meaning s (map Ok rs) ->
       at_open_or_end (written post ++ s) /\ Meaning (written post ++ s) (map Ok (post ++ rs))).
    { intros s rs HO HM. unfold post in *. destruct (last_font_cases (ar_values a)) as [[E _]|(u & f & w & E & Ef)].
      - rewrite E. auto.
      - rewrite Ef in *. split; [apply font_open, HP1, Hpost_in; now left|]. apply (written_meaning [VFont f]); auto.
        + constructor; [apply HP1, Hpost_in; now left|constructor].
        + constructor; [apply HX1, Hpost_in; now left|constructor].
        + intros x0 t0 u0 y0 EE. destruct x0 as [|? [|? ?]]; discriminate EE.
        + intros (t0 & [I0|[]]). discriminate I0. }
    assert (HPR : forall s rs, Meaning s (map Ok rs) -> Meaning (written pre ++ s) (map Ok (pre ++ rs))).
    { intros s rs HM. assert (map reprint pre = pre) as ER.
      { apply reprint_ids. intros c I. apply Hpre_in in I. destruct Hfa as [_ Hfa]. eapply Hfa; eauto. }
      rewrite <- ER at 2. apply written_meaning; auto.
      - apply Forall_forall; auto.
      - apply Forall_forall; auto.
      - intros (t0 & I0). exfalso. apply without_fonts_none in I0 as [_ I0]. destruct F as [F _]. apply (F _ I0). exact Logic.I. }
    assert (HFN : in_force (says_font d) fs pre = fs).
    { apply says_font_none. intros v I. now apply without_fonts_none in I. }
    assert (HLP : Forall (fun l => plain l /\ Forall text_char l) used).
    { eapply Forall_impl; [|exact HAu]. intros l0 (L1 & L2 & _). auto. }
    exists (pre ++ post), (pre ++ line_values used ++ post), [], rest, s0', s1', (i + 1), ws'. splits; auto.
    + rewrite app_length. lia.
    + destruct used as [|l0 used]; [apply AG_same|].
      pose proof HAu as HAu'. apply Forall_cons_iff in HAu' as [(_ & _ & f & cs & Hf & _) _].
      rewrite <- Hn in Hf. apply (AG_lines d _ fs pre post (l0 :: used) f n); auto.
      * rewrite Hn. exact R.
      * eapply Nat.le_trans; [|exact HL]. rewrite app_length. apply Nat.le_add_r.
      * eapply Forall_impl; [|exact HAu]. intros l1 (L1 & L2 & f' & cs' & Hf' & Hs' & W'). rewrite <- Hn in Hf'.
        rewrite (FirstFont_fun _ _ _ _ Hf' Hf) in *. split; auto. exists cs'. auto.
    + apply within_app; auto.
    + apply within_app; auto. apply within_app; auto. apply lines_within.
    + apply Forall_app; auto.
    + apply Forall_app. split; auto. apply Forall_app. split; auto. apply lines_quiet.
    + apply Forall_app. split; auto. apply Forall_app. split; auto. apply lines_supported.
    + rewrite in_force_app, HFN, <- Hn. apply last_font_number.
    + rewrite in_force_app, HFN. unfold post. destruct (last_font_cases (ar_values a)) as [[-> _]|(u & f & w & E & ->)]; auto.
      cbn [in_force says_font]. intros k g E1 E2. destruct f as [[m [k'|]]|]; cbn [or_else fst snd] in *; try discriminate E1.
      injection E1 as ->. assert (I : In (VFont (Some (m, Some k))) (ar_values a)) by (rewrite E; apply in_elt).
      exact (Hfit _ I g E2).
    + intros rs HM. rewrite <- !app_assoc. apply HPR. rewrite written_app, <- app_assoc.
      apply HPF; [apply HOP; eauto|apply HEM; eauto].
    + intros rs HM. rewrite <- !app_assoc. apply HPR. rewrite written_app, <- app_assoc.
      assert (K1 : at_open_or_end (written (end_values a) ++ s1')) by (apply HOP; eauto).
      assert (K2 : Meaning (written (end_values a) ++ s1') (map Ok (end_values a ++ rs))) by (apply HEM; eauto).
      destruct (HPF _ _ K1 K2) as [K3 K4]. eapply lines_meaning; eauto.
Qed.

(** ** All areas *)

Lemma areas_next r n vs l : Areas d r n vs l -> forall fs since lines s0 s1 i ws,
  Filled d since l [] s0 -> Filled d since l lines s1 -> Widths d i l ws -> AllFit d ws lines ->
  (List.length lines <= 256)%nat -> last_font since = [] -> fst fs = n -> font_fits fs ->
  Forall (fit_value d) vs -> Forall (fit_area d) l -> Forall Parsable vs -> Forall printable_hex vs ->
  Forall (Supports d) vs -> TextsApart l -> Forall (area_good d) l ->
  exists x y, Meaning s0 (map Ok x) /\ Meaning s1 (map Ok y) /\ Grown d r fs x y
    /\ Forall quiet x /\ Forall quiet y /\ Forall (Supports d) y.
Proof.
  assert (HMN : Meaning [] (map Ok [])) by (exists []; split; constructor).
  assert (HFN : forall since lines s, Filled d since [] lines s -> s = []) by (intros since lines s H; now inversion H).
  induction 1 as [r n vs HW|r n vs rest l HW HA IH|r n vs q rest l HW HA IH];
    intros fs since lines s0 s1 i ws F0 F1 HWd HAf HL HS Hn Hfs Hfit Hfa HP HX Hsup Hap Hg.
  - apply Forall_cons_iff in Hfa as [Hfa _]. apply Forall_cons_iff in Hg as [Hg _].
    destruct (area_next (mkArea r n vs None) [] fs since lines s0 s1 i ws) as
      (x & y & since' & lines' & s0' & s1' & i' & ws' & F0' & F1' & W' & A' & L' & LF & AG & X1 & Y1 & X2 & Y2 & Y3 & _ & _ & M0 & M1);
      auto; cbn [ar_values ar_end end_values] in *; rewrite ?app_nil_r; auto.
    { apply (Hap (mkArea r n vs None)). now left. }
    apply HFN in F0', F1'. subst. specialize (M0 [] HMN). specialize (M1 [] HMN). cbn [app] in M0, M1. rewrite app_nil_r in M0, M1.
    exists x, y. splits; auto. now apply grown_last.
  - apply Forall_cons_iff in Hfa as [Hfa Hfa']. apply Forall_cons_iff in Hg as [Hg Hg'].
    apply Forall_app in Hfit as [Hf1 Hf2]. apply Forall_cons_iff in Hf2 as [_ Hf2].
    apply Forall_app in HP as [HP1 HP2]. pose proof HP2 as HP3. apply Forall_cons_iff in HP2 as [HPn HP2].
    apply Forall_app in HX as [HX1 HX2]. apply Forall_cons_iff in HX2 as [HXn HX2].
    apply Forall_app in Hsup as [HS1 HS2]. apply Forall_cons_iff in HS2 as [HSn HS2].
    destruct (area_next (mkArea r n vs (Some VNewPage)) l fs since lines s0 s1 i ws) as
      (x & y & since' & lines' & s0' & s1' & i' & ws' & F0' & F1' & W' & A' & L' & LF & AG & X1 & Y1 & X2 & Y2 & Y3 & N1 & N2 & M0 & M1);
      auto; cbn [ar_values ar_end end_values] in *; try discriminate.
    { apply Forall_app. auto. }
    { apply Forall_app. auto. }
    { apply (Hap (mkArea r n vs (Some VNewPage))). now left. }
    destruct (IH (in_force (says_font d) fs x) since' lines' s0' s1' i' ws') as (x' & y' & MX & MY & G & QX & QY & SY); auto; [lia|intros b I; apply Hap; now right|].
    exists (x ++ VNewPage :: x'), (y ++ VNewPage :: y'). splits; auto.
    + apply (M0 x' MX).
    + apply (M1 y' MY).
    + now apply grown_page.
    + apply Forall_app. split; auto; constructor; auto; exact Logic.I.
    + apply Forall_app. split; auto; constructor; auto; exact Logic.I.
    + apply Forall_app. split; auto.
  - apply Forall_cons_iff in Hfa as [Hfa Hfa']. apply Forall_cons_iff in Hg as [Hg Hg'].
    apply Forall_app in Hfit as [Hf1 Hf2]. apply Forall_cons_iff in Hf2 as [_ Hf2].
    apply Forall_app in HP as [HP1 HP2]. pose proof HP2 as HP3. apply Forall_cons_iff in HP2 as [HPn HP2].
    apply Forall_app in HX as [HX1 HX2]. apply Forall_cons_iff in HX2 as [HXn HX2].
    apply Forall_app in Hsup as [HS1 HS2]. apply Forall_cons_iff in HS2 as [HSn HS2].
    destruct (area_next (mkArea r n vs (Some (VTextRectangle q))) l fs since lines s0 s1 i ws) as
      (x & y & since' & lines' & s0' & s1' & i' & ws' & F0' & F1' & W' & A' & L' & LF & AG & X1 & Y1 & X2 & Y2 & Y3 & N1 & N2 & M0 & M1);
      auto; cbn [ar_values ar_end end_values] in *; try discriminate.
    { apply Forall_app. auto. }
    { apply Forall_app. auto. }
    { apply (Hap (mkArea r n vs (Some (VTextRectangle q)))). now left. }
    destruct (IH (in_force (says_font d) fs x) since' lines' s0' s1' i' ws') as (x' & y' & MX & MY & G & QX & QY & SY); auto; [lia|intros b I; apply Hap; now right|].
    exists (x ++ VTextRectangle q :: x'), (y ++ VTextRectangle q :: y'). splits; auto.
    + apply (M0 x' MX).
    + apply (M1 y' MY).
    + now apply grown_rect.
    + apply Forall_app. split; auto; constructor; auto; exact Logic.I.
    + apply Forall_app. split; auto; constructor; auto; exact Logic.I.
    + apply Forall_app. split; auto.
Qed.
End Fit.

(** ** Patterns *)

Lemma fit_wrap d ws lines : AllFit d (map wrap_number ws) lines -> AllFit d ws lines.
Proof.
  intros H i [[w n] k] t E1 E2. apply (H i (w, n, k mod 256) t); auto. now rewrite (map_nth_error wrap_number i ws E1).
Qed.

Lemma kept_oks d vs : Forall (Supports d) vs -> Kept d (map Ok vs) vs.
Proof. induction 1; cbn [map]; constructor; auto. Qed.

Lemma areas_parsable d r n vs l : Areas d r n vs l -> Forall Parsable vs ->
  Forall (fun a => Forall Parsable (ar_values a ++ end_values a)) l.
Proof.
  induction 1 as [r n vs HW|r n vs rest l HW HA IH|r n vs q rest l HW HA IH]; intros HP;
    [constructor; [cbn; now rewrite app_nil_r|constructor]|..];
    apply Forall_app in HP as [HP1 HP2]; apply Forall_cons_iff in HP2 as [HP2 HP3]; constructor; auto;
    cbn; apply Forall_app; auto.
Qed.

Lemma areas_hex d r n vs l : Areas d r n vs l -> forall c, In (VHexadecimalCharacter c) vs ->
  exists a, In a l /\ In (VHexadecimalCharacter c) (ar_values a).
Proof.
  induction 1 as [r n vs HW|r n vs rest l HW HA IH|r n vs q rest l HW HA IH]; intros c I;
    [eexists; split; [now left|exact I]|..];
    (apply in_app_or in I as [I|[I|I]]; [eexists; split; [now left|exact I]|discriminate I|]);
    destruct (IH c I) as (a & Ia & Ja); exists a; split; auto; now right.
Qed.

Lemma fit_pattern md mw d ms vs l ws lines s0 s ps0 : Built d -> ~ Endless d (default_font (d_multi_cfg d)) ->
  Usable d -> FontsInCells d -> PlaceableDefaults d ->
  Meaning ms (map Ok vs) -> Forall (Supports d) vs -> Lists d TNp -> Lists d TNl -> PatternAreas d vs l ->
  TextsApart l -> Forall (fit_value d) vs -> Forall (fit_area d) l ->
  (List.length lines <= 256)%nat ->
  pat_widths mw d ms = Val ws -> AllFit d ws lines ->
  pat_fill md d ms [] = Val s0 -> Yields Debug d s0 (map Ok ps0) ->
  pat_fill md d ms lines = Val s ->
  exists ps, (forall md', Yields md' d s (map Ok ps)) /\ map pg_duration ps = map pg_duration ps0.
Proof.
  intros HB He HU HC HPD HM HS HNP HNL HA HAp Hfit Hfa HLn HW HAf E0 HY E1.
  destruct (pattern_fill md d ms vs l [] HB He HM HS HNP HA) as (s0' & F0 & E0'). rewrite E0 in E0'. injection E0' as <-.
  destruct (pattern_fill md d ms vs l lines HB He HM HS HNP HA) as (s' & F1 & E1'). rewrite E1 in E1'. injection E1' as <-.
  pose proof (Meaning_oks_ok _ _ HM) as HV.
  pose proof (areas_good d _ _ _ _ HB He HA HV (u16_sign d HB) He) as HG.
  destruct (widths_areas d l HB HG 0 ltac:(lia)) as (k & ws1 & HFk & Hk & HWd & W1 & W2 & W3).
  assert (AllFit d ws1 lines) as HA1.
  { destruct (pattern_widths mw d ms (map Ok vs) HB HM) as (vs2 & l2 & k2 & K2 & A2 & Fk2 & HH).
    assert (vs2 = vs) as -> by (eapply kept_fun; eauto; now apply kept_oks).
    assert (l2 = l) as -> by (eapply Areas_fun; eauto).
    destruct HH as [((a & Ia & Fa & Ea) & _)|(ws2 & HWd2 & Hw1 & Hw2 & Hw3)].
    - exfalso. rewrite Forall_forall in HG. destruct (HG a Ia) as (_ & Hne & _). exact (Hne Fa Ea).
    - rewrite (widths_fun d l 0 ws1 ws2 HWd HWd2). destruct (Z_le_gt_dec k2 255) as [Lk|Gk].
      + rewrite (Hw1 Lk) in HW. injection HW as ->. exact HAf.
      + destruct mw.
        * rewrite Hw2 in HW by lia. discriminate HW.
        * rewrite Hw3 in HW. injection HW as <-. now apply fit_wrap. }
  assert (Forall Parsable vs) as HPa by (apply oks_Parsable in HM; now rewrite oks_map_Ok in HM).
  assert (HAP : Forall (fun a => Forall Parsable (ar_values a ++ end_values a)) l) by (eapply areas_parsable; eauto).
  assert (Forall printable_hex vs) as HX.
  { destruct (filled_written d [] l s0 [] F0 eq_refl (Forall_nil _) HAP) as (zs & Es & HZ & HCx).
    destruct (yields_meaning _ _ _ _ HY) as (us & HMs). pose proof (printed_reread zs HZ) as HMz.
    change (printed zs) with (written zs) in HMz. rewrite <- Es in HMz. pose proof (Meaning_fun _ _ _ HMs HMz) as EQ.
    apply Forall_forall. intros v I. destruct v; try exact Logic.I. cbn.
    destruct (areas_hex d _ _ _ _ HA c I) as (a & Ia & Ja). specialize (HCx a c Ia Ja).
    destruct (Z_lt_le_dec c 10000) as [|Hc]; auto. exfalso.
    apply hexes_iff in HCx. rewrite <- hexes_merge in HCx. apply hexes_iff in HCx. apply (in_map reread) in HCx. rewrite <- EQ in HCx.
    apply in_map_iff in HCx as (w & Ew & _). cbn in Ew. destruct (Z.ltb_spec c 10000); [lia|discriminate]. }
  destruct (areas_next d HNL _ _ _ _ HA (default_font (d_multi_cfg d), None) [] lines s0 s 0 ws1 F0 F1 HWd HA1 HLn eq_refl eq_refl)
    as (x & y & M0 & M1 & G & Q0 & Q1 & S1); auto.
  { intros k0 f E. discriminate E. }
  destruct (grown_yields d HB HU HC HPD s0 s x y ps0 M0 M1 G S1 Q0 Q1 HY) as (ps & HYs & HD).
  exists ps. split; auto. intros md'. now apply yields_modes.
Qed.
