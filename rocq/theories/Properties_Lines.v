(** Properties C62 and C63: exactly what [lines], [widths] and [fill] give. *)

From Coq Require Import String.
From Verif Require Import Base Str Multi Color Raster Font Graphic Config Sign Pattern
  Spec_Multi Spec_Color Spec_Font Spec_Tfon Spec_Graphic Spec_Sign Spec_Render Spec_Layout Spec_Page Spec_Pattern Spec_Lines Spec_Reached
  Proofs_Str Proofs_Norm Proofs_Pages Proofs_Sign Proofs_Place Proofs_Pattern Proofs_Fill Proofs_Lines Proofs_Extract Proofs_Reached
  Examples_Sign Properties_Layout Properties_Pattern.
From Verif Require Spec_Fail Proofs_Fail.
Open Scope list_scope.

(** ** C62: lines *)

(** Every pattern and every message, in both builds.  [rs] and [cut] are what the
    pieces of the pattern say, [vs] the values kept, [l] their areas, [k] what the
    message must hold and [ts] the pieces of the message. *)
Theorem c62_lines : forall md d pattern ms, Built d ->
  exists rs cut vs l k ts o, Spec_Fail.Reading pattern rs cut /\ Kept d rs vs /\ PatternAreas d vs l
    /\ PatternTasks d l cut k /\ Tokens ms ts /\ Extract d k ts o
    /\ pat_lines md d pattern ms = outcome o.
Proof.
  intros md d pattern ms HB. destruct (Proofs_Fail.reading_exists pattern) as (rs & cut & HR).
  destruct (kept_exists d rs) as (vs & HK). destruct (c35_areas d vs) as (l & HA & _).
  destruct (Proofs_Split.Tokens_exists ms) as (ts & HT).
  destruct (pattern_extract md d pattern rs cut vs l ms ts HB HR HK HA HT) as (k & o & H1 & H2 & H3).
  exists rs, cut, vs, l, k, ts, o. splits; auto.
Qed.
Print Assumptions c62_lines.

(** All of these are unique. *)
Theorem c62_unique : forall d pattern rs rs' cut cut' vs vs' l l' k k' ms ts ts' o o', Built d ->
  Spec_Fail.Reading pattern rs cut -> Kept d rs vs -> PatternAreas d vs l -> PatternTasks d l cut k ->
  Tokens ms ts -> Extract d k ts o ->
  Spec_Fail.Reading pattern rs' cut' -> Kept d rs' vs' -> PatternAreas d vs' l' -> PatternTasks d l' cut' k' ->
  Tokens ms ts' -> Extract d k' ts' o' ->
  k = k' /\ ts = ts' /\ o = o'.
Proof.
  intros d pattern rs rs' cut cut' vs vs' l l' k k' ms ts ts' o o' HB HR HK HA HP HT HE HR' HK' HA' HP' HT' HE'.
  destruct (Proofs_Fail.reading_fun _ _ _ _ _ HR HR') as [<- <-]. pose proof (kept_fun _ _ _ HK _ HK') as <-.
  pose proof (Areas_fun _ _ _ _ _ HA _ HA') as <-. pose proof (pattern_tasks_fun _ _ _ _ _ HP HP') as <-.
  pose proof (Proofs_Split.Tokens_unique _ _ _ HT HT') as <-. splits; auto.
  destruct (pattern_tasks d rs cut vs l pattern HB HR HK HA) as (k2 & HP2 & HO & _).
  pose proof (pattern_tasks_fun _ _ _ _ _ HP HP2) as <-. eapply extract_fun; eauto.
Qed.
Print Assumptions c62_unique.

(** As many lines as fit the fillable areas, unless the message does not match. *)
Theorem c62_count : forall d l k ts ls, PatternTasks d l false k -> Extract d k ts (Lines ls) ->
  TotalRoom d l (Z.of_nat (List.length ls)).
Proof. intros d l k ts ls HT HE. eapply extract_count; eauto. Qed.
Print Assumptions c62_count.

(** No lines from a pattern with a tag whose reading panics. *)
Theorem c62_cut : forall d l k ts ls, PatternTasks d l true k -> ~ Extract d k ts (Lines ls).
Proof. intros d l k ts ls (l' & a & k' & -> & _ & ->) HE. now apply (extract_cut _ _ _ _ _ HE ls). Qed.
Print Assumptions c62_cut.

(** Every line is text with the tags allowed in it. *)
Theorem c62_text : forall md d pattern ms ls, Built d -> pat_lines md d pattern ms = Val ls -> Forall LineText ls.
Proof.
  intros md d pattern ms ls HB E.
  destruct (c62_lines md d pattern ms HB) as (rs & cut & vs & l & k & ts & o & _ & _ & _ & _ & HT & HE & EO).
  rewrite EO in E. destruct o as [ls'| | |]; try discriminate E; injection E as <-; [|constructor].
  eapply extract_text; eauto.
Qed.
Print Assumptions c62_text.

(** ** Examples *)

Definition ex_area : Area := mkArea pt_full 1 [VJustificationLine (Some JlCenter)] None.

Definition ex_tokens : list str := [lit "[fo1]"; lit "[jl3]"; lit "A"; lit "[nl]"; lit "[cf2]"; lit "B"].
Definition ex_tasks : list Task := [Match (VJustificationLine (Some JlCenter)); Fill ex_area].

(** A page for three lines; the message has a font tag and two lines. *)
Example ex_extract :
  Spec_Fail.Reading (lit "[jl3]") [Ok (VJustificationLine (Some JlCenter))] false
  /\ Kept lx_d [Ok (VJustificationLine (Some JlCenter))] [VJustificationLine (Some JlCenter)]
  /\ PatternAreas lx_d [VJustificationLine (Some JlCenter)] [ex_area]
  /\ PatternTasks lx_d [ex_area] false ex_tasks
  /\ Tokens (lit "[fo1][jl3]A[nl][cf2]B") ex_tokens
  /\ Extract lx_d ex_tasks ex_tokens (Lines [lit "A"; lit "[cf2]B"; []])
  /\ pat_lines Debug lx_d (lit "[jl3]") (lit "[fo1][jl3]A[nl][cf2]B") = Val [lit "A"; lit "[cf2]B"; []].
Proof.
  assert (D : forall t r, (exists q, Token t q) -> try_from t = Val r -> TokenDenotes t r).
  { intros t r (q & Hq) E. destruct (Proofs_Tag.try_from_token t q Hq) as [[_ E']|(_ & r' & E' & H)]; congruence. }
  assert (TG : forall b q, forallb (fun c => negb (c =? 91) && negb (c =? 93)) b = true -> Token (91 :: b ++ [93]) q).
  { intros b q H. constructor. apply Forall_forall. intros c Ic. rewrite forallb_forall in H. specialize (H c Ic). lia. }
  assert (TX : forall c q, c <> 91 /\ c <> 93 -> at_boundary q -> Token [c] q).
  { intros c q H B. constructor; auto; [discriminate|]. constructor; auto. }
  assert (HF : Fillable lx_d ex_area) by fillable.
  splits.
  - apply Proofs_Fail.meaning_reading. apply (values_meaning Debug). vm_compute. reflexivity.
  - constructor; [|constructor]. apply supp_iff. reflexivity.
  - apply Ar_last. intros v [<-|[]] [].
  - apply (Ts_fill lx_d ex_area [] []); [exact HF|constructor].
  - apply (Tks_cons (lit "[fo1]")); [apply (TG (lit "fo1")); reflexivity|].
    apply (Tks_cons (lit "[jl3]")); [apply (TG (lit "jl3")); reflexivity|].
    apply (Tks_cons (lit "A")); [apply TX; [split; discriminate|right; eexists _, _; split; [reflexivity|now left]]|].
    apply (Tks_cons (lit "[nl]")); [apply (TG (lit "nl")); reflexivity|].
    apply (Tks_cons (lit "[cf2]")); [apply (TG (lit "cf2")); reflexivity|].
    apply (Tks_cons (lit "B") []); [apply TX; [split; discriminate|now left]|]. constructor.
  - eapply Ex_match.
    { eapply Sk_font; [apply D; [exists []; apply (TG (lit "fo1")); reflexivity|vm_compute; reflexivity]|].
      apply Sk_found; [reflexivity|]. apply D; [exists []; apply (TG (lit "jl3")); reflexivity|vm_compute; reflexivity]. }
    change (Lines [lit "A"; lit "[cf2]B"; []]) with (Lines (exactly 3 [lit "A"; lit "[cf2]B"] ++ [])).
    eapply (Ex_fill lx_d ex_area [] 3); [|apply (Rl_more [lit "A"] (lit "[nl]") [lit "[cf2]"; lit "B"] [lit "[cf2]B"] [])|constructor].
    + apply pt_room; [unfold u16_rect, u16; cbn; lia|vm_compute; reflexivity].
    + constructor; [|constructor]. eexists. split; [apply D; [exists []; apply TX; [split; discriminate|now left]|vm_compute; reflexivity]|exact I].
    + eexists. apply D; [exists []; apply (TG (lit "nl")); reflexivity|vm_compute; reflexivity].
    + apply (Rl_last [lit "[cf2]"; lit "B"] []); [|now left].
      apply Forall_cons; [|apply Forall_cons; [|constructor]]; eexists; (split; [apply D; [|vm_compute; reflexivity]|exact I]); exists [];
        [apply (TG (lit "cf2")); reflexivity|apply TX; [split; discriminate|now left]].
  - vm_compute. reflexivity.
Qed.

(** More lines than fit, a mismatch, a malformed piece where the pattern has ended,
    and patterns and messages with a tag whose reading panics: one that is not
    reached, and one that is. *)
Example ex_results : forall md,
  pat_lines md lx_d (lit "[tr1,1,20,6][np]") (lit "[tr1,1,20,6]A[nl]B[nl]A[np]B[nl]A") = Val [lit "A"; lit "B"; lit "A"; []]
  /\ pat_lines md lx_d (lit "[tr1,1,20,6][np]") (lit "[tr1,1,20,12]A[np]B") = Val []
  /\ pat_lines md lx_d (lit "[jl3]") (lit "[jl3]A[bad") = Val [lit "A"; []; []]
  /\ pat_lines md lx_d (lit "[jl3][fl" ++ [233; 93]) (lit "[jl3]A") = Panic
  /\ pat_lines md lx_d (lit "[jl3][fl" ++ [233; 93]) (lit "[jl4]A") = Val []
  /\ pat_lines md lx_d (lit "[jl3]") (lit "[jl3]A[bad][fl" ++ [233; 93]) = Val [lit "A"; []; []]
  /\ pat_lines md lx_d (lit "[jl3]") (lit "[jl3]A[fl" ++ [233; 93]) = Panic.
Proof. intros []; splits; vm_compute; reflexivity. Qed.

(** ** C63: widths and filling *)

(** Every pattern, in both builds.  [l] are the areas whose end is reached. *)
Theorem c63_widths : forall md d ms, Built d ->
  exists rs cut vs l0 l, Spec_Fail.Reading ms rs cut /\ Kept d rs vs /\ PatternAreas d vs l0 /\ Reached l0 cut l
    /\ WidthsAre md d l cut (pat_widths md d ms).
Proof.
  intros md d ms HB. destruct (Proofs_Fail.reading_exists ms) as (rs & cut & HR).
  destruct (kept_exists d rs) as (vs & HK). destruct (c35_areas d vs) as (l0 & HA & _).
  assert (exists l, Reached l0 cut l) as (l & HL).
  { destruct (areas_complete _ _ _ _ _ HA) as (l' & a & E & _). destruct cut; [exists l', a; auto|exists l0; reflexivity]. }
  exists rs, cut, vs, l0, l. splits; auto. eapply pattern_widths_all; eauto.
Qed.
Print Assumptions c63_widths.

Theorem c63_widths_unique : forall md d ms rs rs' cut cut' vs vs' l0 l0' l l' m m',
  Spec_Fail.Reading ms rs cut -> Kept d rs vs -> PatternAreas d vs l0 -> Reached l0 cut l -> WidthsAre md d l cut m ->
  Spec_Fail.Reading ms rs' cut' -> Kept d rs' vs' -> PatternAreas d vs' l0' -> Reached l0' cut' l' -> WidthsAre md d l' cut' m' ->
  m = m'.
Proof.
  intros md d ms rs rs' cut cut' vs vs' l0 l0' l l' m m' HR HK HA HL HW HR' HK' HA' HL' HW'.
  destruct (Proofs_Fail.reading_fun _ _ _ _ _ HR HR') as [<- <-]. pose proof (kept_fun _ _ _ HK _ HK') as <-.
  pose proof (Areas_fun _ _ _ _ _ HA _ HA') as <-. pose proof (reached_fun _ _ _ _ HL HL') as <-.
  eapply widths_are_fun; eauto.
Qed.
Print Assumptions c63_widths_unique.

Theorem c63_fill : forall md d ms lines, Built d ->
  exists rs cut, Spec_Fail.Reading ms rs cut /\ FillIs d rs cut lines (pat_fill md d ms lines).
Proof.
  intros md d ms lines HB. destruct (Proofs_Fail.reading_exists ms) as (rs & cut & HR).
  exists rs, cut. split; auto. now apply pattern_fill_all.
Qed.
Print Assumptions c63_fill.

Theorem c63_fill_unique : forall d ms rs rs' cut cut' lines m m',
  Spec_Fail.Reading ms rs cut -> FillIs d rs cut lines m -> Spec_Fail.Reading ms rs' cut' -> FillIs d rs' cut' lines m' ->
  m = m'.
Proof.
  intros d ms rs rs' cut cut' lines m m' HR HF HR' HF'.
  destruct (Proofs_Fail.reading_fun _ _ _ _ _ HR HR') as [<- <-]. eapply fill_is_fun; eauto.
Qed.
Print Assumptions c63_fill_unique.

(** A sign on which the lines of default font number 0 cannot be counted. *)
Definition ex_sign0 : Dms := mkDms sx_sign_cfg sx_vms [sx_font; font_default 0] pt_multi0 [graphic_default].

Example ex_built0 : Built ex_sign0.
Proof. exists Debug, pt_builder0. split; [apply pt_builder0_fields|]. vm_compute. reflexivity. Qed.

(** A tag that panics before or after such an area; malformed tags; font number 1
    from the second page on; more than 255 fillable areas. *)
Example ex_reached : forall md,
  pat_widths md ex_sign0 (lit "A[fl" ++ [233; 93]) = Panic
  /\ pat_widths md ex_sign0 (lit "[np]A[fl" ++ [233; 93]) = Hang
  /\ pat_fill md ex_sign0 (lit "[fl" ++ [233; 93]) [] = Panic
  /\ pat_fill md ex_sign0 (lit "[bad]") [] = Val []
  /\ pat_fill md ex_sign0 (lit "[np][bad]") [] = Hang
  /\ pat_fill md ex_sign0 (lit "[bad][np][fl" ++ [233; 93]) [] = Val []
  /\ pat_fill md ex_sign0 (lit "A[fo1][np]") [lit "B"] = Val (lit "A[np]B[fo1]")
  /\ pat_widths md lx_d (lit "[np][bad]") = Val [(20, 1, 0); (20, 1, 0); (20, 1, 0); (20, 1, 1); (20, 1, 1); (20, 1, 1)]
  /\ pat_widths Debug ex_sign0 (lit "A[fo1]" ++ List.concat (repeat (lit "[np]") 256)) = Panic.
Proof. intros []; splits; vm_compute; reflexivity. Qed.

(** Such a pattern as the theorem describes it. *)
Example ex_fill_is :
  Spec_Fail.Reading (lit "[np][bad]") [Ok VNewPage; Err (SUnsupportedTag (lit "bad"))] false
  /\ FillIs ex_sign0 [Ok VNewPage; Err (SUnsupportedTag (lit "bad"))] false [] Hang.
Proof.
  split.
  - apply Proofs_Fail.meaning_reading. apply (values_meaning Debug). vm_compute. reflexivity.
  - set (a := mkArea (sign_rect ex_sign0) 0 [] (Some VNewPage)). set (b := mkArea (sign_rect ex_sign0) 0 [] None).
    apply (Fi_stuck ex_sign0 _ false [] [VNewPage] [Err (SUnsupportedTag (lit "bad"))] [a; b] [a] 0).
    + unfold FitPart. splits; [reflexivity| |right; eexists _, _; split; [reflexivity|exact I]].
      apply Forall_cons; [apply supp_iff; reflexivity|constructor].
    + apply (Ar_page ex_sign0 (sign_rect ex_sign0) 0 []); [intros ? []|]. apply Ar_last. intros ? [].
    + exists b. reflexivity.
    + exists [], a, []. splits; [reflexivity|fillable| |constructor].
      exists (font_default 0). split; [|splits; reflexivity]. split; [reflexivity|].
      exists [sx_font], []. split; [reflexivity|].
      intros g [<-|[]]. discriminate.
Qed.
