(** Extracting lines from any message (C62). *)

From Coq Require Import String ZifyBool ZifyNat.
From Verif Require Import Base Str Multi Color Font Config Sign Pattern
  Spec_Multi Spec_Color Spec_Font Spec_Tfon Spec_Sign Spec_Render Spec_Layout Spec_Page Spec_Pattern Spec_Lines
  Proofs_Str Proofs_Split Proofs_Tag Proofs_Print Proofs_Norm Proofs_Iter Proofs_Sign Proofs_Pages Proofs_Place Proofs_Build Proofs_Blank
  Proofs_Pattern Proofs_Fill Proofs_Lines Proofs_Cut.
From Verif Require Spec_Fail Proofs_Fail.
Open Scope list_scope.
Ltac Zify.zify_post_hook ::= Z.div_mod_to_equations.

(** ** Tokens *)

Lemma read_panic md a t rest : Token t rest -> PanicToken t ->
  ms_next md (mkMS (a ++ t ++ rest) (len a)) = Panic.
Proof.
  intros HK HD. destruct (next_slice_token md (a ++ t ++ rest) (len a) a (t ++ rest)) as (t2 & rest2 & Hr & _ & HK2 & E); auto.
  { pose proof (Token_nonempty _ _ HK). destruct t; [congruence|discriminate]. }
  destruct (Token_unique _ _ _ _ HK HK2 Hr) as [<- <-].
  unfold ms_next. rewrite E. cbn [bind]. now rewrite (PanicToken_try _ HD).
Qed.

Lemma token_kind t rest : Token t rest -> PanicToken t \/ exists r, TokenDenotes t r.
Proof. intros H. destruct (try_from_token _ _ H) as [[? _]|(_ & r & _ & ?)]; eauto. Qed.

Lemma tokens_length s ts : Tokens s ts -> (List.length ts <= List.length s)%nat.
Proof.
  induction 1 as [|t rest ts HK HT IH]; [auto|]. rewrite app_length.
  pose proof (Token_nonempty _ _ HK). destruct t; [congruence|]. cbn [List.length]. lia.
Qed.

Lemma split_after a t rest : ms_split (mkMS (a ++ t ++ rest) (len (a ++ t))) = Val (a ++ t, rest).
Proof. rewrite app_assoc. apply split_here. Qed.

(** ** Lines *)

Lemma exactly_cons n x ls : 0 < n -> exactly n (x :: ls) = x :: exactly (n - 1) ls.
Proof.
  intros H. unfold exactly. assert (Z.to_nat n = S (Z.to_nat (n - 1))) as -> by lia.
  cbn [app firstn]. f_equal. change (repeat [] (S (Z.to_nat (n - 1)))) with ([[]:str] ++ repeat [] (Z.to_nat (n - 1))).
  generalize (Z.to_nat (n - 1)) as k. clear. intros k.
  assert (forall k m (l : list str), (k <= m)%nat -> firstn k (l ++ repeat [] m) = firstn k (l ++ repeat [] k)) as E.
  { clear. intros k m l H. rewrite !firstn_app. f_equal.
    assert (forall i m, (i <= m)%nat -> firstn i (repeat ([]:str) m) = repeat [] i) as R.
    { induction i as [|i IH]; intros [|q] Hq; auto; try lia. cbn. f_equal. apply IH. lia. }
    rewrite !R; auto; lia. }
  change ([[]:str] ++ repeat [] k) with (repeat ([]:str) (S k)). apply E. lia.
Qed.

Lemma exactly_zero ls : exactly 0 ls = [].
Proof. reflexivity. Qed.

Lemma exactly_one n x : 0 <= n -> exactly n [x] = pad_lines (Z.to_nat n) x.
Proof.
  intros H. unfold exactly. destruct (Z.to_nat n) as [|k]; [reflexivity|]. cbn [app firstn pad_lines]. f_equal.
  clear. assert (forall j (m : nat), (j <= m)%nat -> firstn j (repeat ([]:str) m) = pad_lines j []) as E.
  { induction j as [|j IH]; intros [|m] Hm; try reflexivity; try lia. cbn. f_equal. apply IH. lia. }
  apply E. lia.
Qed.

Lemma read_lines_cons t ts o : LineToken t -> ReadLines ts o ->
  ReadLines (t :: ts) (match o with
                       | Some (s :: ls, rest) => Some ((t ++ s) :: ls, rest)
                       | Some ([], rest) => Some ([], rest)
                       | None => None
                       end).
Proof.
  intros HT H. destruct H as [line rest H E|line u rest H P|line u ts ls rest H B R|line u ts H B R].
  - apply (Rl_last (t :: line) rest); auto.
  - apply (Rl_crash (t :: line) u rest); auto.
  - apply (Rl_more (t :: line) u ts ls rest); auto.
  - apply (Rl_more_crash (t :: line) u ts); auto.
Qed.

Lemma read_lines_some ts ls rest : ReadLines ts (Some (ls, rest)) -> ls <> [].
Proof. inversion 1; discriminate. Qed.

(** [rect_scan] with [a] read of the current line. *)
Lemma scan_all md : forall fuel ts rest a n lines, Tokens rest ts -> (List.length ts < fuel)%nat -> 0 <= n ->
  exists o, ReadLines ts o
    /\ match o with
       | None => rect_scan md fuel n (mkMS (a ++ rest) (len a)) a rest lines = Panic
       | Some (s :: more, ts') => exists rest' ls n' b, Tokens rest' ts'
           /\ rect_scan md fuel n (mkMS (a ++ rest) (len a)) a rest lines = Val (ls, n', b, rest')
           /\ ls ++ pad_lines (Z.to_nat n') b = lines ++ exactly n ((a ++ s) :: more)
       | Some ([], _) => False
       end.
Proof.
  induction fuel as [|f IH]; intros ts rest a n lines HT HL HN; [lia|].
  assert (STOP : LinesEnd ts -> rect_scan md (S f) n (mkMS (a ++ rest) (len a)) a rest lines = Val (lines, n, a, rest) ->
    exists o, ReadLines ts o
    /\ match o with
       | None => rect_scan md (S f) n (mkMS (a ++ rest) (len a)) a rest lines = Panic
       | Some (s :: more, ts') => exists rest' ls n' b, Tokens rest' ts'
           /\ rect_scan md (S f) n (mkMS (a ++ rest) (len a)) a rest lines = Val (ls, n', b, rest')
           /\ ls ++ pad_lines (Z.to_nat n') b = lines ++ exactly n ((a ++ s) :: more)
       | Some ([], _) => False
       end).
  { intros HE E. exists (Some ([[]], ts)). split; [apply (Rl_last [] ts); auto|].
    exists rest, lines, n, a. splits; auto. rewrite app_nil_r, exactly_one; auto. }
  inversion HT as [|t q ts' HK HT' E1 E2]; subst.
  - apply STOP; [now left|]. cbn [rect_scan]. rewrite app_nil_r, read_none. reflexivity.
  - destruct (token_kind t q HK) as [HP|([v|e] & HD)].
    + exists None. split; [apply (Rl_crash [] t ts'); auto|]. cbn [rect_scan]. now rewrite (read_panic md a t q HK HP).
    + assert (LineToken t -> rect_scan md (S f) n (mkMS (a ++ t ++ q) (len a)) a (t ++ q) lines
        = rect_scan md f n (mkMS ((a ++ t) ++ q) (len (a ++ t))) (a ++ t) q lines ->
        exists o, ReadLines (t :: ts') o
        /\ match o with
           | None => rect_scan md (S f) n (mkMS (a ++ t ++ q) (len a)) a (t ++ q) lines = Panic
           | Some (s :: more, ts') => exists rest' ls n' b, Tokens rest' ts'
               /\ rect_scan md (S f) n (mkMS (a ++ t ++ q) (len a)) a (t ++ q) lines = Val (ls, n', b, rest')
               /\ ls ++ pad_lines (Z.to_nat n') b = lines ++ exactly n ((a ++ s) :: more)
           | Some ([], _) => False
           end) as LINE.
      { intros HLt ->. cbn [List.length] in HL. destruct (IH ts' q (a ++ t) n lines HT' ltac:(lia) HN) as (o & HR & HO).
        eexists. split; [apply (read_lines_cons t ts' o HLt HR)|].
        destruct o as [[[|s more] ts2]|]; auto. destruct HO as (r' & ls & n' & b & H1 & H2 & H3).
        exists r', ls, n', b. splits; auto. now rewrite app_assoc. }
      assert (NOT : ~ line_value v -> (forall x, v <> VNewLine x) -> LinesEnd (t :: ts')).
      { intros N1 N2. right. exists t, ts', (Ok v). splits; auto. intros w E. injection E as <-. auto. }
      pose proof (read_token md a t q _ HK HD) as RD.
      destruct v; try (apply LINE; [eexists; split; [exact HD|exact I]|]; cbn [rect_scan]; rewrite RD; cbn [bind];
        rewrite split_after; cbn [bind]; now rewrite <- app_assoc);
      try (apply STOP; [apply NOT; [intros []|discriminate]|]; cbn [rect_scan]; rewrite RD; reflexivity).
      (* a new line *)
      cbn [List.length] in HL.
      destruct (IH ts' q [] (if 0 <? n then n - 1 else n) (if 0 <? n then lines ++ [a] else lines) HT' ltac:(lia) ltac:(destruct (0 <? n) eqn:?; lia)) as (o & HR & HO).
      cbn [app] in HO. change (len []) with 0 in HO.
      assert (ES : rect_scan md (S f) n (mkMS (a ++ t ++ q) (len a)) a (t ++ q) lines
        = rect_scan md f (if 0 <? n then n - 1 else n) (mkMS q 0) [] q (if 0 <? n then lines ++ [a] else lines)).
      { cbn [rect_scan]. rewrite RD. cbn [bind]. destruct (0 <? n); rewrite split_after; cbn [bind snd];
          change (ms_new q) with (mkMS ([] ++ q) (len [])); rewrite split_here; reflexivity. }
      rewrite ES. destruct o as [[[|s more] ts2]|]; [contradiction| |].
      * eexists (Some ([] :: s :: more, ts2)). split.
        { change (t :: ts') with ([] ++ t :: ts'). apply (Rl_more [] t ts' (s :: more) ts2); auto. eexists; eauto. }
        destruct HO as (rest' & ls & n' & b & HTr & E & EL). exists rest', ls, n', b. splits; auto. rewrite EL, app_nil_r.
        destruct (0 <? n) eqn:En.
        -- rewrite (exactly_cons n) by lia. now rewrite <- app_assoc.
        -- assert (n = 0) as -> by lia. now rewrite !exactly_zero.
      * exists None. split; auto. change (t :: ts') with ([] ++ t :: ts'). apply (Rl_more_crash [] t ts'); auto. eexists; eauto.
    + apply STOP.
      { right. exists t, ts', (Err e). splits; auto. discriminate. }
      cbn [rect_scan]. rewrite (read_token md a t q _ HK HD). reflexivity.
Qed.

(** ** Looking for a value *)

Definition found_of (v : Value) (x : option (result Value SyntaxError)) : bool :=
  match x with
  | Some (Ok w) => if value_eq_dec w v then true else false
  | None => if value_eq_dec VNewPage v then true else false
  | Some (Err _) => false
  end.

Lemma seek_all md v : is_font v = false -> forall fuel ts rest a, Tokens rest ts -> (List.length ts < fuel)%nat ->
  exists s, Seek v ts s
    /\ match s with
       | Crashes => skip_fonts md fuel (mkMS (a ++ rest) (len a)) = Panic
       | Differs => exists x m, skip_fonts md fuel (mkMS (a ++ rest) (len a)) = Val (x, m) /\ found_of v x = false
       | Rest ts' => exists x b rest', skip_fonts md fuel (mkMS (a ++ rest) (len a)) = Val (x, mkMS (b ++ rest') (len b))
           /\ found_of v x = true /\ Tokens rest' ts'
       end.
Proof.
  intros Hv. induction fuel as [|f IH]; intros ts rest a HT HL; [lia|].
  inversion HT as [|t q ts' HK HT' E1 E2]; subst; cbn [skip_fonts].
  - rewrite app_nil_r, read_none. cbn [bind]. destruct (value_eq_dec VNewPage v) as [<-|N].
    + exists (Rest []). split; [now constructor|]. exists None, a, []. rewrite app_nil_r. splits; auto.
    + exists Differs. split; [apply Sk_short; congruence|]. eexists _, _. split; [reflexivity|]. unfold found_of.
      destruct (value_eq_dec VNewPage v); congruence.
  - destruct (token_kind t q HK) as [HP|([w|e] & HD)].
    + exists Crashes. split; [now apply Sk_crash|]. now rewrite (read_panic md a t q HK HP).
    + rewrite (read_token md a t q _ HK HD). cbn [bind]. destruct (is_font w) eqn:Ew.
      * destruct w; try discriminate Ew. cbn [List.length] in HL.
        destruct (IH ts' q (a ++ t) HT' ltac:(lia)) as (s & HS & HO). exists s. split; [eapply Sk_font; eauto|].
        now rewrite <- app_assoc in HO.
      * assert (EQ : (match w with
                | VFont _ => skip_fonts md f (mkMS (a ++ t ++ q) (len (a ++ t)))
                | _ => Val (Some (Ok w), mkMS (a ++ t ++ q) (len (a ++ t))) end)
             = Val (Some (@Ok Value SyntaxError w), mkMS (a ++ t ++ q) (len (a ++ t)))) by (destruct w; try reflexivity; discriminate Ew).
        assert (EQ' : (match w with
                | VFont _ => skip_fonts md f (mkMS (a ++ t ++ q) (len (a ++ t)))
                | _ => Val (Some (Ok w), mkMS (a ++ t ++ q) (len (a ++ t))) end)
             = Val (Some (@Ok Value SyntaxError w), mkMS ((a ++ t) ++ q) (len (a ++ t)))) by now rewrite <- app_assoc.
        destruct (value_eq_dec w v) as [->|N].
        -- exists (Rest ts'). split; [now apply Sk_found|]. eexists _, (a ++ t), q. split; [exact EQ'|]. split; auto.
           unfold found_of. destruct (value_eq_dec v v); congruence.
        -- exists Differs. split; [eapply Sk_other; eauto|]. eexists _, _. split; [exact EQ|]. unfold found_of.
           destruct (value_eq_dec w v); congruence.
    + rewrite (read_token md a t q _ HK HD). cbn [bind]. exists Differs. split; [eapply Sk_bad; eauto|].
      eexists _, _. split; reflexivity.
Qed.

(** ** The whole pattern *)

Definition task_item (k : Task) : M (result PatValue SyntaxError) :=
  match k with Match v => Val (Ok (PVal v)) | Fill a => Val (Ok (PFill (ar_rect a) (ar_font a))) | Stop => Panic end.
Definition task_ok (d : Dms) (k : Task) : Prop :=
  match k with Match v => is_font v = false | Fill a => u16_rect (ar_rect a) | Stop => True end.

Lemma extract_all md d : Built d -> forall k ts rest acc, Forall (task_ok d) k -> Tokens rest ts ->
  exists o, Extract d k ts o
    /\ lines_loop md d (map task_item k) rest acc
       = match o with Lines ls => Val (acc ++ ls) | _ => outcome o end.
Proof.
  intros HB. destruct (Built_parts d HB) as (T & V & F).
  induction k as [|[v|a|] k IH]; intros ts rest acc HK HT.
  - exists (Lines []). split; [constructor|]. cbn. now rewrite app_nil_r.
  - inversion HK as [|? ? Hv HK']; subst. cbn [task_ok] in Hv. cbn [map task_item].
    destruct (seek_all md v Hv (S (List.length rest)) ts rest [] HT) as (s & HS & HO).
    { apply tokens_length in HT. lia. }
    assert (E : lines_loop md d (Val (Ok (PVal v)) :: map task_item k) rest acc
      = (let! nx := skip_fonts md (S (List.length rest)) (ms_new rest) in
         if found_of v (fst nx) then
           (let! sp := ms_split (snd nx) in lines_loop md d (map task_item k) (snd sp) acc)
         else Val [])).
    { cbn [lines_loop bind]. destruct v; try discriminate Hv;
        (destruct (skip_fonts md (S (List.length rest)) (ms_new rest)) as [[zx zm]| |]; [|reflexivity|reflexivity];
         cbn [bind fst snd found_of]; destruct zx as [[zw|]|]; reflexivity). }
    rewrite E. clear E. change (mkMS ([] ++ rest) (len [])) with (ms_new rest) in HO.
    destruct s as [ts'| |].
    + destruct HO as (x & b & rest' & -> & Hf & HT'). cbn [bind fst snd]. rewrite Hf, split_here. cbn [bind snd].
      destruct (IH ts' rest' acc HK' HT') as (o & HE & EO). exists o. split; auto. eapply Ex_match; eauto.
    + destruct HO as (x & m & -> & Hf). cbn [bind fst snd]. rewrite Hf. exists NoMatch. split; [now apply Ex_differs|reflexivity].
    + rewrite HO. exists Panics. split; [now apply Ex_crash|reflexivity].
  - inversion HK as [|? ? Hv HK']; subst. cbn [task_ok] in Hv. cbn [map task_item lines_loop bind].
    destruct (rect_lines_cases d (ar_rect a) (ar_font a) T F Hv) as [(n & En & Rn)|(En & X)].
    2:{ rewrite En. exists Forever. split; [now apply Ex_forever|reflexivity]. }
    rewrite En. cbn [bind]. change (ms_new rest) with (mkMS ([] ++ rest) (len [])). rewrite split_here. cbn [bind].
    assert (0 <= n) as Hn by (eapply (Room_nonneg d a); exact Rn).
    destruct (scan_all md (S (List.length rest)) ts rest [] n acc HT) as (o & HR & HO); auto.
    { apply tokens_length in HT. lia. }
    destruct o as [[[|s more] ts']|]; [contradiction| |].
    + destruct HO as (rest' & ls & n' & b & HT' & -> & EL). cbn [bind app] in *. rewrite EL.
      destruct (IH ts' rest' (acc ++ exactly n (s :: more)) HK' HT') as (o & HE & EO).
      destruct o as [l| | |] eqn:Eo.
      * exists (Lines (exactly n (s :: more) ++ l)). split; [eapply Ex_fill; eauto|]. etransitivity; [exact EO|]; now rewrite app_assoc.
      * exists NoMatch. split; [eapply Ex_fails; eauto; discriminate|exact EO].
      * exists Panics. split; [eapply Ex_fails; eauto; discriminate|exact EO].
      * exists Forever. split; [eapply Ex_fails; eauto; discriminate|exact EO].
    + rewrite HO. exists Panics. split; [eapply Ex_panics; eauto|reflexivity].
  - exists Panics. split; [apply Ex_stop|reflexivity].
Qed.

(** Items without errors and font tags. *)
Fixpoint clean (l : list (result PatValue SyntaxError)) : list (result PatValue SyntaxError) :=
  match l with
  | [] => []
  | Err _ :: r => clean r
  | Ok (PVal (VFont _)) :: r => clean r
  | x :: r => x :: clean r
  end.

Lemma lines_clean md d l tl : forall ms acc, lines_loop md d (map Val l ++ tl) ms acc = lines_loop md d (map Val (clean l) ++ tl) ms acc.
Proof.
  assert (X : forall k k', (forall ms acc, lines_loop md d k ms acc = lines_loop md d k' ms acc) ->
    forall x ms acc, lines_loop md d (x :: k) ms acc = lines_loop md d (x :: k') ms acc).
  { intros k k' H x ms acc. cbn [lines_loop]. destruct x as [[[v|r f]|e]| |]; cbn [bind]; auto.
    - destruct v; auto;
      (match goal with |- context [skip_fonts ?a ?b ?c] => destruct (skip_fonts a b c) as [[zy zm]| |]; cbn [bind]; auto end;
       match goal with |- (if ?c then _ else _) = _ => destruct c; auto end;
       destruct (ms_split zm); cbn [bind]; auto).
    - destruct (rect_lines d r f); cbn [bind]; auto. destruct (ms_split (ms_new ms)) as [[? ?]| |]; cbn [bind]; auto.
      match goal with |- context [rect_scan ?a ?b ?c ?e ?g ?h ?i] => destruct (rect_scan a b c e g h i) as [[[[? ?] ?] ?]| |]; cbn [bind]; auto end. }
  induction l as [|x l IH]; intros ms acc; [reflexivity|].
  destruct x as [[v|r f]|e]; cbn [map app clean].
  - destruct v; cbn [map app clean]; try (apply X; exact IH). cbn [lines_loop bind]. apply IH.
  - apply X. exact IH.
  - cbn [lines_loop bind]. apply IH.
Qed.

Lemma clean_app a b : clean (a ++ b) = clean a ++ clean b.
Proof. induction a as [|[[[]|]|] a IH]; cbn [app clean]; try f_equal; auto. Qed.

Lemma clean_kept d rs vs : Kept d rs vs -> forall n rf, clean (plist d n rf rs) = clean (plist d n rf (map Ok vs)).
Proof.
  induction 1 as [|v rs vs HS HK IH|v rs vs HS HK IH|e rs vs HK IH]; intros n rf; [reflexivity| | |].
  - cbn [map plist]. apply supp_iff in HS. rewrite HS. rewrite !clean_app. f_equal.
    destruct v; cbn [clean]; try apply IH; apply f_equal; apply IH.
  - cbn [plist]. apply supp_false in HS. rewrite HS. cbn [clean]. auto.
  - cbn [plist clean]. auto.
Qed.

Lemma clean_vals vs : map Val (clean (map (fun v => Ok (PVal v)) vs)) = map task_item (map Match (without_fonts vs)).
Proof.
  induction vs as [|v vs IH]; [reflexivity|]. unfold without_fonts in *. cbn [map filter].
  destruct v; cbn [clean is_font negb map task_item]; try f_equal; auto.
Qed.

Lemma tasks_exist d l : Forall (fun a => u16_rect (ar_rect a) /\ forall v, ar_end a = Some v -> starts_area v) l ->
  exists k, Tasks d l k /\ map Val (clean (flat_map (area_items d) l)) = map task_item k /\ Forall (task_ok d) k.
Proof.
  induction 1 as [|a l [Hr He] HG (k & HT & HC & HO)].
  - exists []. splits; auto. constructor.
  - assert (EV : map Val (clean match ar_end a with
        | Some v => [Ok (PVal v)]
        | None => if supp d VNewPage then [] else [Err (SUnsupportedTag (display VNewPage))] end)
      = map task_item (map Match (end_values a))).
    { unfold end_values. destruct (ar_end a) as [v|]; [|now destruct (supp d VNewPage)].
      specialize (He v eq_refl). destruct v; try destruct He; reflexivity. }
    assert (O1 : Forall (task_ok d) (map Match (without_fonts (ar_values a)))).
    { apply Forall_forall. intros x Ix. apply in_map_iff in Ix as (v & <- & Iv). apply filter_In in Iv as [_ Iv].
      cbn. now apply negb_true_iff in Iv. }
    assert (O2 : Forall (task_ok d) (map Match (end_values a))).
    { unfold end_values. destruct (ar_end a) as [v|]; [|constructor]. specialize (He v eq_refl).
      constructor; [|constructor]. destruct v; try destruct He; reflexivity. }
    cbn [flat_map]. unfold area_items at 1. destruct (fillableb d a) eqn:EF.
    + apply fillableb_iff in EF. eexists. split; [apply Ts_fill; eauto|]. split.
      * rewrite !clean_app, !map_app, EV, clean_vals, HC. cbn [clean map app]. rewrite !map_app. cbn [map task_item].
        now rewrite <- !app_assoc.
      * apply Forall_app. split; auto. constructor; [exact Hr|]. apply Forall_app. auto.
    + apply fillableb_false in EF. eexists. split; [apply Ts_other; eauto|]. split.
      * rewrite !clean_app, !map_app, EV, clean_vals, HC. cbn [clean map app]. now rewrite <- !app_assoc.
      * rewrite map_app, <- app_assoc. apply Forall_app. split; auto. apply Forall_app. auto.
Qed.

Lemma tasks_fun d l k : Tasks d l k -> forall k', Tasks d l k' -> k = k'.
Proof. induction 1; intros k' H'; inversion H'; subst; try contradiction; auto; do 3 f_equal; auto; f_equal; auto. Qed.

Lemma clean_kept_body d rs vs : Kept d rs vs -> forall n rf, clean (pbody d n rf rs) = clean (pbody d n rf (map Ok vs)).
Proof.
  induction 1 as [|v rs vs HS HK IH|v rs vs HS HK IH|e rs vs HK IH]; intros n rf; [reflexivity| | |].
  - cbn [map pbody]. apply supp_iff in HS. rewrite HS. rewrite !clean_app. f_equal.
    destruct v; cbn [clean]; try apply IH; apply f_equal; apply IH.
  - cbn [pbody]. apply supp_false in HS. rewrite HS. cbn [clean]. auto.
  - cbn [pbody clean]. auto.
Qed.

Lemma kept_reading_ok d ms rs cut vs : Spec_Fail.Reading ms rs cut -> Kept d rs vs -> Forall value_ok vs.
Proof.
  intros (ts & more & _ & HD & _) HK. revert vs HK.
  induction HD as [|t r ts rs H HD IH]; intros vs HK; inversion HK; subst; auto.
  constructor; auto. apply Parsable_ok. eapply TokenDenotes_parsable; eauto.
Qed.

Lemma matches_ok d vs : Forall (task_ok d) (map Match (without_fonts vs)).
Proof.
  apply Forall_forall. intros x Ix. apply in_map_iff in Ix as (v & <- & Iv). apply filter_In in Iv as [_ Iv].
  cbn. now apply negb_true_iff in Iv.
Qed.

Lemma pattern_tasks d rs cut vs l pattern : Built d -> Spec_Fail.Reading pattern rs cut -> Kept d rs vs -> PatternAreas d vs l ->
  exists k, PatternTasks d l cut k /\ Forall (task_ok d) k
    /\ forall md ms, pat_lines md d pattern ms = lines_loop md d (map task_item k) ms [].
Proof.
  intros HB HM HK HA. pose proof (kept_reading_ok d pattern rs cut vs HM HK) as HV.
  pose proof (areas_shape d _ _ _ _ HB HA HV (u16_sign d HB)) as HG. pose proof (kept_supported d rs vs HK) as HS.
  destruct cut.
  - destruct (pbody_areas d _ _ _ _ HA HS HV) as (l' & a & -> & E). apply Forall_app in HG as [HG _].
    destruct (tasks_exist d l' HG) as (k & Hk & HC & HO).
    exists (k ++ map Match (without_fonts (ar_values a)) ++ [Stop]). splits.
    + exists l', a, k. auto.
    + apply Forall_app. split; auto. apply Forall_app. split; [apply matches_ok|]. constructor; [exact I|constructor].
    + intros md ms. unfold pat_lines. rewrite (pat_items_cut md d pattern rs HM), lines_clean, (clean_kept_body d rs vs HK), E.
      rewrite clean_app, map_app, HC, clean_vals, !map_app, <- !app_assoc. reflexivity.
  - apply Proofs_Fail.meaning_reading in HM. destruct (tasks_exist d l HG) as (k & Hk & HC & HO). exists k. splits; auto.
    intros md ms. unfold pat_lines. rewrite (pat_items_val md d pattern rs HM), <- (app_nil_r (map Val _)), lines_clean, (clean_kept d rs vs HK).
    now rewrite (plist_areas d _ _ _ _ HA HS HV), HC, app_nil_r.
Qed.

Lemma pattern_tasks_fun d l cut k k' : PatternTasks d l cut k -> PatternTasks d l cut k' -> k = k'.
Proof.
  destruct cut; cbn [PatternTasks]; [|intros; eapply tasks_fun; eauto].
  intros (l1 & a & k1 & -> & H & ->) (l2 & b & k2 & E & H' & ->). apply app_inj_tail in E as [-> ->].
  now rewrite (tasks_fun _ _ _ H _ H').
Qed.

Lemma pattern_extract md d pattern rs cut vs l ms ts : Built d -> Spec_Fail.Reading pattern rs cut -> Kept d rs vs -> PatternAreas d vs l ->
  Tokens ms ts ->
  exists k o, PatternTasks d l cut k /\ Extract d k ts o /\ pat_lines md d pattern ms = outcome o.
Proof.
  intros HB HM HK HA HT. destruct (pattern_tasks d rs cut vs l pattern HB HM HK HA) as (k & Hk & HO & E).
  destruct (extract_all md d HB k ts ms [] HO HT) as (o & HE & EO). exists k, o. splits; auto.
  rewrite E, EO. destruct o; reflexivity.
Qed.

(** ** One result only *)

Lemma denotes_fun t r r' : TokenDenotes t r -> TokenDenotes t r' -> r = r'.
Proof. intros H H'. apply TokenDenotes_try in H, H'. congruence. Qed.

Lemma denotes_panic t r : TokenDenotes t r -> PanicToken t -> False.
Proof. intros H H'. apply TokenDenotes_try in H. apply PanicToken_try in H'. congruence. Qed.

Ltac token_clash :=
  match goal with
  | H : TokenDenotes ?t _, H' : PanicToken ?t |- _ => destruct (denotes_panic _ _ H H')
  | H : TokenDenotes ?t ?r, H' : TokenDenotes ?t ?r' |- _ =>
      pose proof (denotes_fun _ _ _ H H') as ?; clear H'; try congruence
  end.

Lemma seek_fun v ts s : Seek v ts s -> forall s', Seek v ts s' -> s = s'.
Proof.
  induction 1; intros s' H'; inversion H'; subst; auto; try congruence; token_clash; auto;
    match goal with E : Ok _ = Ok _ |- _ => injection E as E; subst; try congruence; try discriminate; auto end.
Qed.

Definition not_line (ts : list str) : Prop := match ts with [] => True | t :: _ => ~ LineToken t end.

Lemma line_split line line' rest rest' : line ++ rest = line' ++ rest' -> Forall LineToken line -> Forall LineToken line' ->
  not_line rest -> not_line rest' -> line = line' /\ rest = rest'.
Proof.
  intros E H. revert line' E. induction H as [|t line Ht HF IH]; intros line' E H' N N'.
  - destruct H' as [|t' line' Ht' HF']; auto. cbn [app] in E. subst. now destruct N.
  - destruct H' as [|t' line' Ht' HF']; cbn [app] in E.
    + subst. now destruct N'.
    + injection E as -> E. destruct (IH line' E HF' N N') as [-> ->]. auto.
Qed.

Lemma end_not_line ts : LinesEnd ts -> not_line ts.
Proof.
  intros [->|(t & r & q & -> & HD & H)]; cbn; auto. intros (v & HV & HL). token_clash. subst.
  destruct (H v eq_refl). contradiction.
Qed.

Lemma panic_not_line t : PanicToken t -> ~ LineToken t.
Proof. intros H (v & HV & _). token_clash. Qed.

Lemma break_not_line t : BreakToken t -> ~ LineToken t.
Proof. intros (x & H) (v & HV & HL). token_clash. assert (v = VNewLine x) as -> by congruence. destruct HL. Qed.

Lemma read_lines_fun ts o : ReadLines ts o -> forall o', ReadLines ts o' -> o = o'.
Proof.
  assert (EP : forall t r, LinesEnd (t :: r) -> PanicToken t -> False).
  { intros t r [E|(u & r' & q & E & HD & _)] HP; [discriminate|]. injection E as <- <-. token_clash. }
  assert (EB : forall t r, LinesEnd (t :: r) -> BreakToken t -> False).
  { intros t r [E|(u & r' & q & E & HD & H)] (x & HB); [discriminate|]. injection E as <- <-. token_clash. subst.
    destruct (H _ eq_refl) as [_ N]. now apply (N x). }
  assert (PB : forall t, PanicToken t -> BreakToken t -> False) by (intros t HP (x & HB); token_clash).
  induction 1 as [line rest H E|line u rest H P|line u ts ls rest H B R IH|line u ts H B R IH];
    intros o' H'; inversion H' as [line' rest' L' E' EQ|line' u' rest' L' P' EQ|line' u' ts' ls' rest' L' B' R' EQ|line' u' ts' L' B' R' EQ]; subst;
    (match goal with EQ : _ ++ _ = _ ++ _ |- _ => apply line_split in EQ; auto; cbn [not_line]; auto using end_not_line, panic_not_line, break_not_line end);
    destruct EQ as [-> EQ]; try (injection EQ as <- <-); try (rewrite <- EQ in *); try subst; eauto; try (exfalso; eauto; fail).
  - specialize (IH _ R'). congruence.
  - specialize (IH _ R'). congruence.
  - specialize (IH _ R'). congruence.
Qed.

Lemma room_endless d a n : 0 <= rheight (ar_rect a) -> Room d a n -> Endless d (ar_font a) -> False.
Proof.
  intros Hr HR (f & HF & Hc & Hh & Hs). inversion HR as [X|g k HG _ [LF LM]|g HG N _|g k HG N _ _]; subst; try congruence.
  - destruct HF as (Hn & pre & post & E & _). apply (X f); auto. rewrite E, in_app_iff. cbn. auto.
  - pose proof (FirstFont_fun _ _ _ _ HF HG) as <-. rewrite Hh, Hs in *.
    assert (L : n + 1 <= n); [|lia]. apply LM. unfold LinesFit in *. lia.
Qed.

Lemma extract_fun d k ts o : Forall (task_ok d) k -> Extract d k ts o -> forall o', Extract d k ts o' -> o = o'.
Proof.
  intros HK H. revert HK. induction H; intros HK o' H'; inversion HK as [|? ? HO HK']; subst; inversion H'; subst; auto;
    try (match goal with S1 : Seek _ _ _, S2 : Seek _ _ _ |- _ => pose proof (seek_fun _ _ _ S1 _ S2) as EQ; try discriminate EQ; try (injection EQ as <-) end; auto);
    cbn [task_ok] in *;
    try (match goal with R1 : Room _ _ _, R2 : Endless _ _ |- _ => destruct (room_endless _ _ _ (proj1 (proj2 (proj2 (proj2 HO)))) R1 R2) end);
    (match goal with R1 : Room _ _ _, R2 : Room _ _ _ |- _ => pose proof (RectLines_fun _ _ _ _ _ R1 R2) as <- end);
    (match goal with S1 : ReadLines _ _, S2 : ReadLines _ _ |- _ => pose proof (read_lines_fun _ _ S1 _ S2) as EQ; try discriminate EQ; try (injection EQ as <- <-) end; auto).
  all: repeat match goal with IH : Forall _ _ -> forall o, _ -> _, E : Extract _ _ _ _ |- _ => pose proof (IH HK' _ E); clear E end; subst; try congruence;
    exfalso; match goal with N : forall more, _ <> Lines more |- _ => eapply N; eauto end.
Qed.

(** ** The lines *)

Lemma exactly_length n ls : List.length (exactly n ls) = Z.to_nat n.
Proof. unfold exactly. rewrite firstn_length, app_length, repeat_length. lia. Qed.

Lemma extract_match d vs k ts ls : Extract d (map Match vs ++ k) ts (Lines ls) -> exists ts', Extract d k ts' (Lines ls).
Proof.
  revert ts. induction vs as [|v vs IH]; intros ts H; [eauto|]. cbn [map app] in H. inversion H; subst. eauto.
Qed.

Lemma extract_count d l k : Tasks d l k -> forall ts ls, Extract d k ts (Lines ls) -> TotalRoom d l (Z.of_nat (List.length ls)).
Proof.
  induction 1 as [|a l k HF HT IH|a l k HF HT IH]; intros ts ls H.
  - inversion H; subst. constructor.
  - apply extract_match in H as (ts' & H). inversion H; subst.
    + match goal with X : Extract d _ _ (Lines more) |- _ => apply extract_match in X as (ts2 & X); apply IH in X end.
      match goal with R : Room _ _ _ |- _ => pose proof (Room_nonneg _ _ _ R) end.
      rewrite app_length, exactly_length, Nat2Z.inj_add, Z2Nat.id by lia. now apply Tr_fill.
    + match goal with N : forall more, _ <> Lines more |- _ => now destruct (N ls) end.
  - apply extract_match in H as (ts' & H). apply IH in H. now apply Tr_other.
Qed.

(** A line is read again as the same tokens. *)
Lemma boundary_app a b : at_boundary (a ++ b) -> at_boundary a.
Proof. intros [E|(c & r & E & HB)]; destruct a; [now left|discriminate|now left|]. injection E as -> E. right. eauto. Qed.

Lemma token_cut t a b v : Token t (a ++ b) -> TokenDenotes t (Ok v) -> Token t a.
Proof.
  intros HK HD. inversion HK as [| |c r P|c r P B E|r N|c r N P B]; subst; try (constructor; auto; fail).
  - exfalso. clear HK. assert (X : TokenDenotes (91 :: c) (Err (SUnsupportedTag (91 :: c)))) by now constructor.
    pose proof (denotes_fun _ _ _ HD X). discriminate.
  - exfalso. pose proof (denotes_fun _ _ _ HD Tn_stray). discriminate.
  - apply Tk_text; auto. eapply boundary_app; eauto.
Qed.

Lemma line_tokens line : forall s ts, Tokens s (line ++ ts) -> Forall LineToken line ->
  Tokens (List.concat line) line /\ exists rest, s = List.concat line ++ rest /\ Tokens rest ts.
Proof.
  induction line as [|t line IH]; intros s ts HT HL.
  - split; [constructor|]. exists s. auto.
  - cbn [app] in HT. inversion HT as [|? rest ? HK HT']; subst. inversion HL as [|? ? (v & HD & _) HL']; subst.
    destruct (IH rest ts HT' HL') as (H1 & r & -> & H2). split.
    + cbn [List.concat]. constructor; auto. eapply token_cut; eauto.
    + exists r. cbn [List.concat]. now rewrite app_assoc.
Qed.

Lemma line_text line s ts : Tokens s (line ++ ts) -> Forall LineToken line -> LineText (List.concat line).
Proof.
  intros HT HL. destruct (line_tokens line s ts HT HL) as (HC & _).
  assert (exists us, Forall2 TokenDenotes line (map Ok us) /\ Forall line_value us) as (us & H1 & H2).
  { clear HT HC. induction HL as [|t line (v & HD & HV) HL (us & IH1 & IH2)]; [exists []; split; constructor|].
    exists (v :: us). cbn [map]. split; constructor; auto. }
  exists us. split; auto. exists line. auto.
Qed.

Lemma read_lines_text ts o : ReadLines ts o -> forall s ls rest, Tokens s ts -> o = Some (ls, rest) ->
  Forall LineText ls /\ exists r, Tokens r rest.
Proof.
  induction 1 as [line rest H E|line u rest H P|line u ts ls rest H B R IH|line u ts H B R IH]; intros s ls' rest' HT EO; try discriminate EO; injection EO as <- <-.
  - destruct (line_tokens _ _ _ HT H) as (_ & r & _ & HR). split; eauto. constructor; auto. eapply line_text; eauto.
  - destruct (line_tokens _ _ _ HT H) as (_ & r & _ & HR). inversion HR as [|? q ? HK HT']; subst.
    destruct (IH q ls rest HT' eq_refl) as (H1 & H2). split; auto. constructor; auto. eapply line_text; eauto.
Qed.

Lemma LineText_nil : LineText [].
Proof. exists []. split; [|constructor]. exists []. split; constructor. Qed.

Lemma exactly_text n ls : Forall LineText ls -> Forall LineText (exactly n ls).
Proof.
  intros H. unfold exactly.
  assert (X : forall m l, Forall LineText l -> Forall LineText (firstn m l)).
  { clear. induction m as [|m IH]; intros l H; [constructor|]. destruct H; cbn; constructor; auto. }
  apply X, Forall_app. split; auto. apply Forall_forall. intros x Ix. apply repeat_spec in Ix as ->. apply LineText_nil.
Qed.

Lemma seek_tokens v ts s : Seek v ts s -> forall m ts', Tokens m ts -> s = Rest ts' -> exists m', Tokens m' ts'.
Proof.
  induction 1; intros m ts' HT E; try discriminate E.
  - inversion HT; subst. eauto.
  - injection E as <-. inversion HT; subst. eauto.
  - injection E as <-. eauto.
Qed.

Lemma extract_text d k ts o : Extract d k ts o -> forall s ls, Tokens s ts -> o = Lines ls -> Forall LineText ls.
Proof.
  induction 1; intros s ls' HT EO; try discriminate EO; try (injection EO as <-).
  - constructor.
  - destruct (seek_tokens _ _ _ H s _ HT eq_refl) as (s' & HT'). eauto.
  - destruct (read_lines_text _ _ H0 s _ _ HT eq_refl) as (H2 & r & Hr). apply Forall_app. split; [now apply exactly_text|eauto].
  - destruct (H2 ls'). auto.
Qed.

Lemma extract_cut d vs k : forall ts o, Extract d (k ++ map Match vs ++ [Stop]) ts o -> forall ls, o <> Lines ls.
Proof.
  assert (X : forall ts ls, ~ Extract d (map Match vs ++ [Stop]) ts (Lines ls)).
  { intros ts ls H. apply extract_match in H as (ts' & H). inversion H. }
  induction k as [|t k IH]; intros ts o H ls ->; [now apply X in H|].
  cbn [app] in H. inversion H; subst; try (eapply IH; eauto; fail).
Qed.
