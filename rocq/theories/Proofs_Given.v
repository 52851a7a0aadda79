(** Proofs for C92: the lines given to a pattern. *)

From Coq Require Import String Lia.
From Verif Require Import Base Str Multi Color Font Config Sign Pattern.
Open Scope list_scope.

(** ** Filling one area *)

Lemma fill_short n : forall first lines, (List.length lines <= n)%nat ->
  exists t, forall ms, fill_lines n first lines ms = (ms ++ t, []).
Proof.
  induction n as [|n IH]; intros first lines H.
  - destruct lines; [|cbn in H; lia]. exists []. intros ms. cbn [fill_lines]. now rewrite app_nil_r.
  - destruct lines as [|x lines]; [exists []; intros ms; cbn [fill_lines]; now rewrite app_nil_r|].
    cbn [List.length] in H. destruct (IH false lines ltac:(lia)) as (t & E).
    exists ((if first then [] else lit "[nl]") ++ x ++ t). intros ms. cbn [fill_lines]. rewrite E.
    destruct first; cbn [app]; now rewrite <- ?app_assoc.
Qed.

Lemma fill_full n : forall first lines more, (n <= List.length lines)%nat ->
  exists t, forall ms, fill_lines n first (lines ++ more) ms = (ms ++ t, skipn n lines ++ more).
Proof.
  induction n as [|n IH]; intros first lines more H.
  - exists []. intros ms. cbn [fill_lines skipn]. now rewrite app_nil_r.
  - destruct lines as [|x lines]; cbn [List.length] in H; [lia|].
    destruct (IH false lines more ltac:(lia)) as (t & E).
    exists ((if first then [] else lit "[nl]") ++ x ++ t). intros ms. cbn [fill_lines skipn app]. rewrite E.
    destruct first; cbn [app]; now rewrite <- ?app_assoc.
Qed.

Lemma fill_any n first lines : exists t rest, forall ms, fill_lines n first lines ms = (ms ++ t, rest).
Proof.
  destruct (Nat.le_gt_cases (List.length lines) n) as [H|H].
  - destruct (fill_short n first lines H) as (t & E). eauto.
  - destruct (fill_full n first lines [] ltac:(lia)) as (t & E). rewrite !app_nil_r in E. eauto.
Qed.

(** The filled part of [lines] does not depend on what comes after. *)
Lemma fill_more n : forall first lines more ms, (n <= List.length lines)%nat ->
  fst (fill_lines n first (lines ++ more) ms) = fst (fill_lines n first lines ms).
Proof.
  induction n as [|n IH]; intros first lines more ms H; [reflexivity|].
  destruct lines as [|x lines]; cbn [List.length] in H; [lia|]. cbn [fill_lines app]. apply IH. lia.
Qed.

Lemma fill_at n : forall first l1 l2, (List.length l1 < n)%nat ->
  exists p q rest, forall x ms, fill_lines n first (l1 ++ x :: l2) ms = (ms ++ p ++ x ++ q, rest).
Proof.
  induction n as [|n IH]; intros first l1 l2 H; [lia|]. destruct l1 as [|y l1]; cbn [List.length] in H.
  - destruct (fill_any n false l2) as (t & rest & E). exists (if first then [] else lit "[nl]"), t, rest.
    intros x ms. cbn [app fill_lines]. rewrite E. destruct first; cbn [app]; now rewrite <- ?app_assoc.
  - destruct (IH false l1 l2 ltac:(lia)) as (p & q & rest & E).
    exists ((if first then [] else lit "[nl]") ++ y ++ p), q, rest. intros x ms. cbn [app fill_lines]. rewrite E.
    destruct first; cbn [app]; now rewrite <- ?app_assoc.
Qed.

(** ** Filling a pattern *)

Definition tail_font (fv : option (option (Z * option Z))) : str :=
  match fv with Some f => display (VFont f) | None => [] end.

Lemma with_font fv ms : match fv with Some f => ms ++ display (VFont f) | None => ms end = ms ++ tail_font fv.
Proof. destruct fv; auto. cbn. now rewrite app_nil_r. Qed.

(** The outcome is of the same kind, whatever the lines. *)
Definition alike {A} (a b : M A) : Prop :=
  match a, b with Val _, Val _ | Panic, Panic | Hang, Hang => True | _, _ => False end.

Lemma fill_alike d vs : forall fv lines lines' ms ms', alike (fill_loop d vs fv lines ms) (fill_loop d vs fv lines' ms').
Proof.
  induction vs as [|m vs IH]; intros fv lines lines' ms ms'; cbn [fill_loop]; [exact I|].
  destruct m as [x| |]; cbn [bind]; try exact I. destruct x as [[v|r f]|e]; try exact I.
  - destruct v; apply IH.
  - destruct (rect_lines d r f) as [n| |]; cbn [bind]; try exact I.
    destruct (fill_lines _ true lines ms), (fill_lines _ true lines' ms'). apply IH.
Qed.

(** What is written before stays, or nothing is given, whatever the lines. *)
Lemma fill_app d vs : forall fv0 lines0 ms0 s, fill_loop d vs fv0 lines0 ms0 = Val s ->
  (forall fv lines ms, fill_loop d vs fv lines ms = Val [])
  \/ forall fv lines, exists t, forall ms, fill_loop d vs fv lines ms = Val (ms ++ t).
Proof.
  induction vs as [|m vs IH]; intros fv0 lines0 ms0 s; cbn [fill_loop]; [right; intros; exists []; intros; now rewrite app_nil_r|].
  destruct m as [x| |]; cbn [bind]; try discriminate. destruct x as [[v|r f]|e]; [| |auto].
  - intros E. assert (G : exists fv lines ms s, fill_loop d vs fv lines ms = Val s) by (destruct v; eauto).
    destruct G as (fv1 & lines1 & ms1 & s1 & E1). destruct (IH _ _ _ _ E1) as [HN|HT].
    + left. intros. destruct v; apply HN.
    + right. intros fv lines. destruct v; try apply HT; destruct (HT fv lines) as (u0 & H);
        eexists; intros ms; rewrite H, <- app_assoc; reflexivity.
  - destruct (rect_lines d r f) as [n| |]; cbn [bind]; try discriminate.
    destruct (fill_lines (Z.to_nat n) true lines0 ms0) as [ms1 lines1]. intros E. destruct (IH _ _ _ _ E) as [HN|HT].
    + left. intros fv lines ms. destruct (fill_lines _ _ _ _). apply HN.
    + right. intros fv lines. destruct (fill_any (Z.to_nat n) true lines) as (u & rest & EF). destruct (HT None rest) as (t & H).
      exists (u ++ tail_font fv ++ t). intros ms. rewrite EF, with_font, H. now rewrite <- !app_assoc.
Qed.

Lemma widths_more md d vs : forall i acc ws, widths_loop md d vs i acc = Val ws -> (List.length acc <= List.length ws)%nat.
Proof.
  induction vs as [|m vs IH]; intros i acc ws; cbn [widths_loop]; [intros E; injection E as <-; lia|].
  destruct m as [x| |]; cbn [bind]; try discriminate. destruct x as [[v|r f]|e]; try apply IH.
  destruct (chk8 md (i + 1)) as [j| |]; cbn [bind]; try discriminate.
  destruct (rect_lines d r f) as [n| |]; cbn [bind]; try discriminate.
  intros E. apply IH in E. rewrite app_length in E. lia.
Qed.

(** When widths are given, so is a message. *)
Lemma widths_fill md d vs : forall i acc ws fv lines ms, widths_loop md d vs i acc = Val ws -> exists s, fill_loop d vs fv lines ms = Val s.
Proof.
  induction vs as [|m vs IH]; intros i acc ws fv lines ms; cbn [widths_loop fill_loop]; [eauto|].
  destruct m as [x| |]; cbn [bind]; try discriminate. destruct x as [[v|r f]|e]; [intros E; destruct v; eauto| |eauto].
  destruct (chk8 md (i + 1)) as [j| |]; cbn [bind]; try discriminate.
  destruct (rect_lines d r f) as [n| |]; cbn [bind]; try discriminate.
  intros E. destruct (fill_lines _ true lines ms). eauto.
Qed.

Lemma fill_extra md d vs : forall i acc ws fv lines more ms, widths_loop md d vs i acc = Val ws ->
  (List.length ws <= List.length acc + List.length lines)%nat ->
  fill_loop d vs fv (lines ++ more) ms = fill_loop d vs fv lines ms.
Proof.
  induction vs as [|m vs IH]; intros i acc ws fv lines more ms; cbn [widths_loop fill_loop]; [auto|].
  destruct m as [x| |]; cbn [bind]; try discriminate. destruct x as [[v|r f]|e]; [intros E H; destruct v; eapply IH; eauto| |auto].
  destruct (chk8 md (i + 1)) as [j| |]; cbn [bind]; try discriminate.
  destruct (rect_lines d r f) as [n| |]; cbn [bind]; try discriminate.
  intros E H. pose proof (widths_more _ _ _ _ _ _ E) as HM. rewrite app_length in HM. unfold push_lines in HM. rewrite repeat_length in HM.
  assert (HL : (Z.to_nat n <= List.length lines)%nat) by lia.
  pose proof (fill_more (Z.to_nat n) true lines more ms HL) as EM.
  destruct (fill_full (Z.to_nat n) true lines more HL) as (t & E1). destruct (fill_full (Z.to_nat n) true lines [] HL) as (u & E2).
  rewrite !app_nil_r in E2. rewrite E1, E2 in EM |- *. cbn [fst] in EM. rewrite EM.
  eapply IH; [exact E|]. rewrite app_length. unfold push_lines. rewrite repeat_length, skipn_length. lia.
Qed.

Lemma fill_line md d vs : forall i acc ws fv l1 l2, widths_loop md d vs i acc = Val ws ->
  (List.length acc + List.length l1 < List.length ws)%nat ->
  (forall fv lines ms, fill_loop d vs fv lines ms = Val [])
  \/ exists p q, forall x ms, fill_loop d vs fv (l1 ++ x :: l2) ms = Val (ms ++ p ++ x ++ q).
Proof.
  induction vs as [|m vs IH]; intros i acc ws fv l1 l2; cbn [widths_loop fill_loop].
  { intros E. injection E as <-. lia. }
  destruct m as [x| |]; cbn [bind]; try discriminate. destruct x as [[v|r f]|e]; [| |auto].
  - intros E H. assert (G : forall fv' u, (forall fv lines ms, fill_loop d vs fv lines ms = Val [])
      \/ exists p q, forall x ms, fill_loop d vs fv' (l1 ++ x :: l2) (ms ++ u) = Val (ms ++ p ++ x ++ q)).
    { intros fv' u. destruct (IH i acc ws fv' l1 l2 E H) as [HN|(p & q & HP)]; [left; auto|right].
      exists (u ++ p), q. intros x ms. now rewrite HP, <- !app_assoc. }
    assert (G' : (forall fv lines ms, fill_loop d vs fv lines ms = Val []) \/ exists p q, forall x ms,
        match v with VFont f => fill_loop d vs (Some f) (l1 ++ x :: l2) ms | _ => fill_loop d vs fv (l1 ++ x :: l2) (ms ++ display v) end = Val (ms ++ p ++ x ++ q)).
    { destruct v; try apply G. eapply IH; eauto. }
    destruct G' as [HN|(p & q & HP)]; [left; intros; destruct v; apply HN|right; exists p, q; intros x ms; specialize (HP x ms); destruct v; exact HP].
  - destruct (chk8 md (i + 1)) as [j| |]; cbn [bind]; try discriminate.
    destruct (rect_lines d r f) as [n| |]; cbn [bind]; try discriminate. intros E H.
    destruct (Nat.lt_ge_cases (List.length l1) (Z.to_nat n)) as [HL|HL].
    + destruct (fill_at (Z.to_nat n) true l1 l2 HL) as (p & q & rest & EF).
      destruct (widths_fill md d vs _ _ _ None rest [] E) as (s & ES).
      destruct (fill_app d vs _ _ _ _ ES) as [HN|HT].
      * left. intros fv' lines ms. destruct (fill_lines _ _ _ _). apply HN.
      * right. destruct (HT None rest) as (t & H'). exists p, (q ++ tail_font fv ++ t). intros x ms. rewrite EF, with_font.
        now rewrite H', <- !app_assoc.
    + destruct (fill_full (Z.to_nat n) true l1 [] HL) as (t & E0).
      assert (EF : forall x ms, fill_lines (Z.to_nat n) true (l1 ++ x :: l2) ms = (ms ++ t, skipn (Z.to_nat n) l1 ++ x :: l2)).
      { intros x ms. destruct (fill_full (Z.to_nat n) true l1 (x :: l2) HL) as (u & E1).
        pose proof (fill_more (Z.to_nat n) true l1 (x :: l2) ms HL) as EM. pose proof (fill_more (Z.to_nat n) true l1 [] ms HL) as EM'.
        rewrite E0 in EM'. rewrite E1 in EM |- *. cbn [fst] in EM, EM'. now rewrite EM, <- EM'. }
      assert (HX : (List.length (acc ++ push_lines n (rwidth r, f, i)) + List.length (skipn (Z.to_nat n) l1) < List.length ws)%nat).
      { rewrite app_length. unfold push_lines. rewrite repeat_length, skipn_length. lia. }
      destruct (IH j _ ws None (skipn (Z.to_nat n) l1) l2 E HX) as [HN|(p & q & HP)].
      * left. intros fv' lines ms. destruct (fill_lines _ _ _ _). apply HN.
      * right. exists (t ++ tail_font fv ++ p), q. intros x ms. rewrite EF, with_font. now rewrite HP, <- !app_assoc.
Qed.
