(** Vertical layout of text. *)

From Coq Require Import String.
From Verif Require Import Base Str Multi Color Raster Font Graphic Config Sign Render
  Spec_Multi Spec_Font Spec_Sign Spec_Render Spec_Layout
  Proofs_Str Proofs_Norm Proofs_Color Proofs_Font Proofs_Glyph Proofs_Table Proofs_Tfon Proofs_Sign
  Proofs_Iter Proofs_Machine Proofs_Pages Proofs_Horiz.
From Coq Require Import ZifyBool ZifyNat.
Ltac Zify.zify_post_hook ::= Z.div_mod_to_equations.
Open Scope list_scope.

Definition tl_ok (l : TextLine) : Prop :=
  u8 (tl_height l) /\ u8 (tl_font_spacing l) /\ forall n, tl_line_spacing l = Some n -> u8 n.

Lemma line_spacing_u8 l p : tl_ok l -> tl_ok p -> u8 (line_spacing l p).
Proof.
  intros (_ & F & S) (_ & G & _). unfold line_spacing. destruct (tl_line_spacing l) as [n|]; [auto|].
  unfold avg_up. unfold u8 in *. rewrite avg_half by lia. now apply half_up_bounds.
Qed.

(** ** Heights of stacked lines *)

Definition lead (full : bool) (prev : option TextLine) (l : TextLine) : Z :=
  match prev with Some p => if full then line_spacing l p else 0 | None => 0 end.

Fixpoint stackf (full : bool) (prev : option TextLine) (ls : list TextLine) : Z :=
  match ls with
  | [] => 0
  | l :: r => lead full prev l + tl_height l + stackf full (Some l) r
  end.

Definition opt_ok (p : option TextLine) : Prop := forall l, p = Some l -> tl_ok l.

Lemma lead_u8 full p l : opt_ok p -> tl_ok l -> u8 (lead full p l).
Proof.
  intros HP HL. unfold lead. destruct p as [q|]; [|unfold u8; lia].
  destruct full; [|unfold u8; lia]. apply line_spacing_u8; auto.
Qed.

Lemma stackf_nonneg full : forall ls p, Forall tl_ok ls -> opt_ok p -> 0 <= stackf full p ls.
Proof.
  induction ls as [|l r IH]; intros p HL HP; cbn [stackf]; [lia|]. inversion HL; subst.
  pose proof (lead_u8 full p l HP ltac:(auto)) as U.
  assert (0 <= stackf full (Some l) r) by (apply IH; auto; intros ? [= <-]; auto).
  destruct H1 as (H1 & _). unfold u8 in *. lia.
Qed.

Definition last_of {A} (p : option A) (l : list A) : option A :=
  match rev l with [] => p | x :: _ => Some x end.

Lemma last_of_cons {A} p (x : A) l : last_of p (x :: l) = last_of (Some x) l.
Proof. unfold last_of. cbn [rev]. destruct (rev l); reflexivity. Qed.

Lemma last_of_snoc {A} p (x : A) l : last_of p (l ++ [x]) = Some x.
Proof. unfold last_of. rewrite rev_app_distr. reflexivity. Qed.

Lemma stackf_app full : forall a p b, stackf full p (a ++ b) = stackf full p a + stackf full (last_of p a) b.
Proof.
  induction a as [|l a IH]; intros p b; cbn [app stackf]; [reflexivity|].
  rewrite IH, last_of_cons. lia.
Qed.

(** The loop adds up the lines to the span's line, and those below. *)
Lemma vloop_inv full sln : forall ls p ln a b a' b', Forall tl_ok ls -> opt_ok p ->
  offset_vert_loop Debug full sln ls p ln a b = Val (a', b') ->
  let k := Z.to_nat (sln - ln + 1) in
  a' = a + stackf full p (firstn k ls) /\ a' + b' = a + b + stackf full p ls.
Proof.
  induction ls as [|l r IH]; intros p ln a b a' b' HL HP H; cbn [offset_vert_loop] in H.
  - injection H as <- <-. cbn zeta. rewrite firstn_nil. cbn [stackf]. lia.
  - inversion HL as [|? ? Hl Hr]; subst. apply bind_val in H. destruct H as ([a1 b1] & E & H). cbv zeta in H.
    assert (E1 : (ln <=? sln = true -> a1 = a + lead full p l /\ b1 = b)
               /\ (ln <=? sln = false -> a1 = a /\ b1 = b + lead full p l)).
    { destruct p as [q|]; cbn [lead] in *; [|injection E as <- <-; lia].
      destruct full; [|injection E as <- <-; lia].
      destruct (ln <=? sln); apply bind_val in E; destruct E as (x & Ex & E); apply chk16_val in Ex;
        injection E as <- <-; lia. }
    cbv zeta. destruct (ln <=? sln) eqn:EL; apply bind_val in H; destruct H as (x & Ex & H); apply chk16_val in Ex;
      destruct Ex as [-> Ex]; (apply IH in H; [|auto|intros ? [= <-]; auto]); cbv zeta in H; cbn [stackf].
    + replace (Z.to_nat (sln - ln + 1)) with (S (Z.to_nat (sln - (ln + 1) + 1))) by lia.
      cbn [firstn stackf]. lia.
    + replace (Z.to_nat (sln - ln + 1)) with O by lia.
      replace (Z.to_nat (sln - (ln + 1) + 1)) with O in H by lia. cbn [firstn stackf] in *. lia.
Qed.

Lemma vloop_eval full sln : forall ls p ln a b, Forall tl_ok ls -> opt_ok p -> 0 <= a -> 0 <= b ->
  a + b + stackf full p ls < 65536 ->
  exists a' b', offset_vert_loop Debug full sln ls p ln a b = Val (a', b').
Proof.
  induction ls as [|l r IH]; intros p ln a b HL HP Ha Hb L; cbn [offset_vert_loop]; [eauto|].
  inversion HL as [|? ? Hl Hr]; subst. cbn [stackf] in L.
  pose proof (lead_u8 full p l HP Hl) as U. pose proof Hl as (Uh & _). unfold u8 in *.
  assert (HP' : opt_ok (Some l)) by (intros ? [= <-]; auto).
  pose proof (stackf_nonneg full r (Some l) Hr HP') as Hn.
  assert (E : exists a1 b1, (match p with
      | Some p0 => if full then
             let h := line_spacing l p0 in
             if ln <=? sln then let! a0 := chk16 Debug (a + h) in Val (a0, b)
             else let! b0 := chk16 Debug (b + h) in Val (a, b0)
           else Val (a, b)
      | None => Val (a, b) end) = Val (a1, b1) /\ 0 <= a1 /\ 0 <= b1 /\ a1 + b1 = a + b + lead full p l).
  { unfold lead in *. destruct p as [q|]; [|exists a, b; splits; auto; lia].
    destruct full; [|exists a, b; splits; auto; lia]. cbv zeta.
    destruct (ln <=? sln); rewrite chk16_in by lia; cbn [bind]; eexists; eexists; (split; [reflexivity|]); lia. }
  destruct E as (a1 & b1 & E & H1 & H2 & H3). cbv zeta in E |- *. rewrite E. cbn [bind].
  destruct (ln <=? sln); rewrite chk16_in by lia; cbn [bind]; apply IH; auto; lia.
Qed.

Lemma stackf_member full : forall ls p k l, Forall tl_ok ls -> opt_ok p -> nth_error ls k = Some l ->
  tl_height l <= stackf full p ls.
Proof.
  induction ls as [|x r IH]; intros p k l HL HP N; [destruct k; discriminate N|].
  inversion HL as [|? ? Hl Hr]; subst. cbn [stackf].
  pose proof (lead_u8 full p x HP Hl) as U. pose proof Hl as (Uh & _). unfold u8 in *.
  assert (HP' : opt_ok (Some x)) by (intros ? [= <-]; auto).
  pose proof (stackf_nonneg full r (Some x) Hr HP') as Hn.
  destruct k as [|k]; cbn [nth_error] in N.
  - injection N as ->. lia.
  - specialize (IH (Some x) k l Hr HP' N). lia.
Qed.

(** ** Collecting the lines *)

Lemma nth_combine_at : forall ls n l k, nth_error (combine_at ls n l) k
  = match nth_error ls k with
    | Some x => Some (if (k =? n)%nat then combine x l else x)
    | None => None
    end.
Proof.
  induction ls as [|x r IH]; intros n l k.
  - destruct n, k; reflexivity.
  - destruct n as [|n], k as [|k]; cbn [combine_at nth_error]; auto.
    + destruct (nth_error r k); reflexivity.
    + rewrite IH. reflexivity.
Qed.

Lemma combine_at_length : forall ls n l, List.length (combine_at ls n l) = List.length ls.
Proof. induction ls as [|x r IH]; intros [|n] l; cbn; auto. Qed.

Lemma Forall_nth {A} (P : A -> Prop) l : (forall k x, nth_error l k = Some x -> P x) -> Forall P l.
Proof. intros H. apply Forall_forall. intros x I. apply In_nth_error in I. destruct I as (k & N). eauto. Qed.

Section Lines.
Variable fonts : FontTable.
Hypothesis HF : table_fields fonts.

Lemma span_height_iff s h : span_height s fonts = Ok h <-> HeightOf fonts s h.
Proof.
  unfold span_height, HeightOf. destruct (rs_get_font (span_state s) fonts) as [f|e] eqn:E.
  - apply get_font_iff in E. split; [intros [= <-]; eauto|]. intros (g & G & ->). now rewrite (FontOf_fun _ _ _ _ E G).
  - split; [discriminate|]. intros (g & G & _). apply get_font_iff in G. congruence.
Qed.

Lemma span_lead_iff s h : span_font_spacing s fonts = Ok h <-> LeadOf fonts s h.
Proof.
  unfold span_font_spacing, LeadOf. destruct (rs_get_font (span_state s) fonts) as [f|e] eqn:E.
  - apply get_font_iff in E. split; [intros [= <-]; eauto|]. intros (g & G & ->). now rewrite (FontOf_fun _ _ _ _ E G).
  - split; [discriminate|]. intros (g & G & _). apply get_font_iff in G. congruence.
Qed.

Lemma HeightOf_fun s a b : HeightOf fonts s a -> HeightOf fonts s b -> a = b.
Proof. rewrite <- !span_height_iff. congruence. Qed.
Lemma LeadOf_fun s a b : LeadOf fonts s a -> LeadOf fonts s b -> a = b.
Proof. rewrite <- !span_lead_iff. congruence. Qed.
Lemma HeightOf_u8 s a : HeightOf fonts s a -> u8 a.
Proof. intros (f & H & ->). apply FontOf_fields in H; auto. apply H. Qed.
Lemma LeadOf_u8 s a : LeadOf fonts s a -> u8 a.
Proof. intros (f & H & ->). apply FontOf_fields in H; auto. apply H. Qed.

(** One span as a line. *)
Definition as_line (s : Span) (h fs : Z) : TextLine := mkLine h fs (span_line_spacing s).

Lemma as_line_ok s h fs : span_fields s -> HeightOf fonts s h -> LeadOf fonts s fs -> tl_ok (as_line s h fs).
Proof.
  intros (_ & HL & _) H1 H2. apply HeightOf_u8 in H1. apply LeadOf_u8 in H2. unfold tl_ok, as_line. cbn. auto.
Qed.

Lemma combine_ok a b : tl_ok a -> tl_ok b -> tl_ok (combine a b).
Proof.
  unfold tl_ok, combine, u8. cbn [tl_height tl_font_spacing tl_line_spacing]. intros (A & B & C) (D & E & F). splits; try lia.
  all: intros n; destruct (tl_line_spacing a); auto.
Qed.

Lemma collect_step s r ls out : collect_lines fonts (s :: r) ls = Ok out ->
  exists h fs, HeightOf fonts s h /\ LeadOf fonts s fs
    /\ collect_lines fonts r (if Z.of_nat (List.length ls) <=? s_line s then ls ++ [as_line s h fs]
                              else combine_at ls (Z.to_nat (s_line s)) (as_line s h fs)) = Ok out.
Proof.
  cbn [collect_lines]. destruct (span_height s fonts) as [h|] eqn:Eh; [|discriminate].
  destruct (span_font_spacing s fonts) as [fs|] eqn:Ef; [|discriminate].
  apply span_height_iff in Eh. apply span_lead_iff in Ef. intros H. exists h, fs. splits; auto.
  unfold s_line, as_line. destruct (_ <=? _); exact H.
Qed.

Lemma collect_fonts : forall l ls out, collect_lines fonts l ls = Ok out ->
  forall s, In s l -> exists f, FontOf fonts s f.
Proof.
  induction l as [|s r IH]; intros ls out H t I; [destruct I|].
  apply collect_step in H. destruct H as (h & fs & (f & Hf & _) & _ & H). destruct I as [<-|I]; eauto.
Qed.

Lemma collect_total : forall l ls, (forall s, In s l -> exists f, FontOf fonts s f) ->
  exists out, collect_lines fonts l ls = Ok out.
Proof.
  induction l as [|s r IH]; intros ls H; cbn [collect_lines]; [eauto|].
  destruct (H s) as (f & Hf); [cbn; auto|].
  rewrite (proj2 (span_height_iff s (f_height f)) ltac:(exists f; auto)).
  rewrite (proj2 (span_lead_iff s (f_line_spacing f)) ltac:(exists f; auto)).
  destruct (_ <=? _); apply IH; intros t I; apply H; cbn; auto.
Qed.

Lemma collect_ok : forall l ls out, Forall span_fields l -> Forall tl_ok ls ->
  collect_lines fonts l ls = Ok out -> Forall tl_ok out.
Proof.
  induction l as [|s r IH]; intros ls out HS HL H; [injection H as <-; auto|].
  inversion HS; subst. apply collect_step in H. destruct H as (h & fs & H1 & H2' & H).
  pose proof (as_line_ok s h fs ltac:(auto) H1 H2') as O.
  apply IH in H; auto. destruct (_ <=? _).
  - apply Forall_app. auto.
  - apply Forall_nth. intros k x. rewrite nth_combine_at. destruct (nth_error ls k) as [y|] eqn:E; [|discriminate].
    assert (Hy : tl_ok y) by (rewrite Forall_forall in HL; apply HL; eapply nth_error_In; eauto).
    intros [= <-]. destruct (k =? _)%nat; auto using combine_ok.
Qed.

(** Lines only grow, and each span is on a line no lower than its number. *)
Lemma collect_grow : forall l ls out, collect_lines fonts l ls = Ok out ->
  forall k x, nth_error ls k = Some x -> exists y, nth_error out k = Some y /\ tl_height x <= tl_height y.
Proof.
  induction l as [|s r IH]; intros ls out H k x N; [injection H as <-; exists x; split; auto; lia|].
  apply collect_step in H. destruct H as (h & fs & H1 & H2 & H). destruct (_ <=? _).
  - eapply IH; [exact H|]. rewrite nth_error_app1; auto. apply nth_error_Some. congruence.
  - destruct (IH _ _ H k (if (k =? Z.to_nat (s_line s))%nat then combine x (as_line s h fs) else x)) as (y & Ny & L).
    { rewrite nth_combine_at, N. reflexivity. }
    exists y. split; auto. destruct (_ =? _)%nat; auto. cbn [combine tl_height] in L. lia.
Qed.

Lemma collect_member : forall l ls out s h, collect_lines fonts l ls = Ok out -> In s l -> 0 <= s_line s ->
  HeightOf fonts s h ->
  exists k y, nth_error out k = Some y /\ Z.of_nat k <= s_line s /\ h <= tl_height y.
Proof.
  induction l as [|t r IH]; intros ls out s h H I Hn Hh; [destruct I|].
  apply collect_step in H. destruct H as (h' & fs & H1 & H2 & H). destruct I as [->|I]; [|eauto].
  rewrite (HeightOf_fun _ _ _ H1 Hh) in H.
  destruct (Z.leb_spec (Z.of_nat (List.length ls)) (s_line s)) as [L|L].
  - destruct (collect_grow _ _ _ H (List.length ls) (as_line s h fs)) as (y & Ny & Ly).
    { rewrite nth_error_app2 by lia. now rewrite Nat.sub_diag. }
    exists (List.length ls), y. cbn [as_line tl_height] in Ly. auto.
  - destruct (nth_error ls (Z.to_nat (s_line s))) as [x|] eqn:Ex; [|apply nth_error_None in Ex; lia].
    destruct (collect_grow _ _ _ H (Z.to_nat (s_line s)) (combine x (as_line s h fs))) as (y & Ny & Ly).
    { rewrite nth_combine_at, Ex, Nat.eqb_refl. reflexivity. }
    exists (Z.to_nat (s_line s)), y. cbn [as_line combine tl_height] in Ly. splits; auto; lia.
Qed.

(** ** What the lines stand for *)

Definition LineRel (l : list Span) (t : TextLine) : Prop :=
  Greatest (HeightOf fonts) l (tl_height t) /\ Greatest (LeadOf fonts) l (tl_font_spacing t)
  /\ Asked l (tl_line_spacing t).

Lemma Greatest_one (R : Span -> Z -> Prop) s h : (forall a b, R s a -> R s b -> a = b) -> R s h -> Greatest R [s] h.
Proof.
  intros F H. split; [exists s; split; cbn; auto|]. intros x v [<-|[]] Hv. specialize (F _ _ H Hv). lia.
Qed.

Lemma Greatest_snoc (R : Span -> Z -> Prop) l m s h : (forall a b, R s a -> R s b -> a = b) ->
  Greatest R l m -> R s h -> Greatest R (l ++ [s]) (Z.max m h).
Proof.
  intros F ((x & I & Hx) & B) H. split.
  - destruct (Z.max_spec m h) as [[L ->]|[L ->]].
    + exists s. split; auto. apply in_elt.
    + exists x. split; auto. apply in_app_iff. auto.
  - intros y v J Hv. apply in_app_iff in J. destruct J as [J|[<-|[]]].
    + specialize (B y v J Hv). lia.
    + specialize (F _ _ H Hv). lia.
Qed.

Lemma Greatest_fun (R : Span -> Z -> Prop) l m n : Greatest R l m -> Greatest R l n -> m = n.
Proof. intros ((x & I & H) & B) ((y & J & K) & C). specialize (B y n J K). specialize (C x m I H). lia. Qed.

Lemma Asked_one s : Asked [s] (span_line_spacing s).
Proof.
  unfold span_line_spacing. destruct (rs_line_spacing (span_state s)) as [n|] eqn:E.
  - apply (As_some _ [] s [] n); auto. intros t [].
  - constructor. intros t [<-|[]]. auto.
Qed.

Lemma Asked_snoc l o s : Asked l o ->
  Asked (l ++ [s]) (match o with Some x => Some x | None => span_line_spacing s end).
Proof.
  intros [l' H|l' a t b n E H K].
  - unfold span_line_spacing. destruct (rs_line_spacing (span_state s)) as [n|] eqn:E.
    + apply (As_some _ l' s [] n); auto.
    + constructor. intros t I. apply in_app_iff in I. destruct I as [I|[<-|[]]]; auto.
  - subst l'. apply (As_some _ a t (b ++ [s]) n); auto. now rewrite <- app_assoc.
Qed.

Lemma Asked_inv l o : Asked l o ->
  match o with
  | None => forall s, In s l -> rs_line_spacing (span_state s) = None
  | Some n => exists a s b, l = a ++ s :: b /\ (forall t, In t a -> rs_line_spacing (span_state t) = None)
      /\ rs_line_spacing (span_state s) = Some n
  end.
Proof. intros [l' H|l' a t b n E H K]; auto. exists a, t, b. auto. Qed.

Lemma Asked_fun l a b : Asked l a -> Asked l b -> a = b.
Proof.
  intros HA HB. apply Asked_inv in HA, HB. destruct a as [n|], b as [n'|]; auto.
  - destruct HA as (x & t & y & E & H & K), HB as (x' & t' & y' & E' & H' & K').
    f_equal. rewrite E in E'. clear E. revert x' H' E'.
    induction x as [|z x IH]; intros x' H' E'; destruct x' as [|z' x']; cbn in E'.
    + injection E' as -> _. congruence.
    + injection E' as -> _. rewrite (H' z') in K; [discriminate K|cbn; auto].
    + injection E' as <- _. rewrite (H z) in K'; [discriminate K'|cbn; auto].
    + injection E' as -> E'. apply (IH ltac:(intros; apply H; cbn; auto) x'); auto. intros; apply H'; cbn; auto.
  - destruct HA as (x & t & y & -> & H & K). rewrite (HB t) in K; [discriminate K|apply in_elt].
  - destruct HB as (x & t & y & -> & H & K). rewrite (HA t) in K; [discriminate K|apply in_elt].
Qed.

Lemma LineRel_one s h fs : HeightOf fonts s h -> LeadOf fonts s fs -> LineRel [s] (as_line s h fs).
Proof.
  intros H1 H2. unfold LineRel, as_line. cbn [tl_height tl_font_spacing tl_line_spacing]. splits.
  - apply Greatest_one; auto. intros a b. apply HeightOf_fun.
  - apply Greatest_one; auto. intros a b. apply LeadOf_fun.
  - apply Asked_one.
Qed.

Lemma LineRel_snoc l t s h fs : LineRel l t -> HeightOf fonts s h -> LeadOf fonts s fs ->
  LineRel (l ++ [s]) (combine t (as_line s h fs)).
Proof.
  intros (A & B & C) H1 H2. unfold LineRel, as_line, combine. cbn [tl_height tl_font_spacing tl_line_spacing]. splits.
  - apply Greatest_snoc; auto. intros a b. apply HeightOf_fun.
  - apply Greatest_snoc; auto. intros a b. apply LeadOf_fun.
  - now apply Asked_snoc.
Qed.

Definition line_of (l : list Span) (n : nat) : list Span := filter (fun t => s_line t =? Z.of_nat n) l.

Lemma line_of_snoc l s n : line_of (l ++ [s]) n = line_of l n ++ (if s_line s =? Z.of_nat n then [s] else []).
Proof. unfold line_of. rewrite filter_app. cbn [filter]. destruct (_ =? _); auto. Qed.

(** The lines collected from the spans [l] of a block. *)
Definition Collected (l : list Span) (ls : list TextLine) : Prop :=
  (forall n t, nth_error ls n = Some t -> LineRel (line_of l n) t)
  /\ (forall s, In s l -> 0 <= s_line s < Z.of_nat (List.length ls)).

Definition BlockStacked (l : list Span) : Prop :=
  forall a s b, l = a ++ s :: b ->
    0 <= s_line s /\ (s_line s = 0 \/ exists t, In t a /\ s_line t = s_line s - 1).

Lemma line_of_none l n : (forall s, In s l -> s_line s < Z.of_nat n) -> line_of l n = [].
Proof.
  intros H. unfold line_of. induction l as [|x l IH]; cbn [filter]; auto.
  pose proof (H x ltac:(cbn; auto)). replace (s_line x =? Z.of_nat n) with false by lia. apply IH.
  intros. apply H. cbn; auto.
Qed.

Lemma collect_collected : forall todo dn ls out, BlockStacked (dn ++ todo) -> Collected dn ls ->
  collect_lines fonts todo ls = Ok out -> Collected (dn ++ todo) out.
Proof.
  induction todo as [|s r IH]; intros dn ls out HB HC H.
  - injection H as <-. now rewrite app_nil_r.
  - apply collect_step in H. destruct H as (h & fs & H1 & H2 & H).
    replace (dn ++ s :: r) with ((dn ++ [s]) ++ r) in * by (now rewrite <- app_assoc).
    eapply IH; [exact HB| |exact H]. clear H IH out.
    destruct (HB dn s r) as (Hn & Hp); [now rewrite <- app_assoc|].
    destruct HC as [C1 C2].
    destruct (Z.leb_spec (Z.of_nat (List.length ls)) (s_line s)) as [L|L].
    + assert (E : s_line s = Z.of_nat (List.length ls)).
      { destruct Hp as [Hp|(t & I & Et)]; [lia|]. specialize (C2 t I). lia. }
      split.
      * intros n t N. rewrite line_of_snoc.
        destruct (Nat.eq_dec n (List.length ls)) as [->|Hd].
        -- rewrite nth_error_app2, Nat.sub_diag in N by lia. injection N as <-.
           rewrite line_of_none by (intros x I; apply C2 in I; lia).
           replace (s_line s =? Z.of_nat (List.length ls)) with true by lia. now apply LineRel_one.
        -- assert (n < List.length (ls ++ [as_line s h fs]))%nat by (apply nth_error_Some; congruence).
           rewrite app_length in H. cbn [List.length] in H.
           rewrite nth_error_app1 in N by lia. replace (s_line s =? Z.of_nat n) with false by lia.
           rewrite app_nil_r. auto.
      * intros x I. rewrite app_length. cbn [List.length]. apply in_app_iff in I.
        destruct I as [I|[<-|[]]]; [apply C2 in I; lia|lia].
    + split.
      * intros n t N. rewrite line_of_snoc. rewrite nth_combine_at in N.
        destruct (nth_error ls n) as [x|] eqn:E; [|discriminate N]. injection N as <-.
        destruct (Nat.eqb_spec n (Z.to_nat (s_line s))) as [->|Hd].
        -- replace (s_line s =? Z.of_nat (Z.to_nat (s_line s))) with true by lia. apply LineRel_snoc; auto.
        -- replace (s_line s =? Z.of_nat n) with false by lia. rewrite app_nil_r. auto.
      * intros x I. rewrite combine_at_length. apply in_app_iff in I.
        destruct I as [I|[<-|[]]]; [apply C2 in I; lia|lia].
Qed.

End Lines.

(** ** Blocks *)

Definition block_of (all : list Span) (s : Span) : list Span :=
  filter (fun t => matches_line (span_state s) (span_state t)) all.

Lemma matches_line_iff s t : matches_line (span_state s) (span_state t) = true <-> SameBlock s t.
Proof. unfold matches_line, SameBlock, s_jp. rewrite jp_eqb_iff. intuition. Qed.

Lemma SameBlock_refl s : SameBlock s s. Proof. reflexivity. Qed.

Lemma block_of_self all s : In s all -> In s (block_of all s).
Proof. intros H. apply filter_In. split; auto. apply matches_line_iff, SameBlock_refl. Qed.

Lemma block_of_fields all s : Forall span_fields all -> Forall span_fields (block_of all s).
Proof. rewrite !Forall_forall. intros H x I. apply filter_In in I. apply H, I. Qed.

Lemma filter_split {A} (f : A -> bool) : forall l a x b, filter f l = a ++ x :: b ->
  exists a' b', l = a' ++ x :: b' /\ filter f a' = a /\ filter f b' = b.
Proof.
  induction l as [|y l IH]; intros a x b H; cbn [filter] in H; [destruct a; discriminate H|].
  destruct (f y) eqn:E.
  - destruct a as [|z a]; injection H as -> H.
    + exists [], l. auto.
    + apply IH in H. destruct H as (a' & b' & -> & <- & <-). exists (z :: a'), b'. cbn [filter]. rewrite E. auto.
  - apply IH in H. destruct H as (a' & b' & -> & <- & <-). exists (y :: a'), b'. cbn [filter]. rewrite E. auto.
Qed.

Lemma block_stacked all s : Stacked all -> BlockStacked (block_of all s).
Proof.
  intros HS a t b E.
  assert (M : matches_line (span_state s) (span_state t) = true).
  { assert (I : In t (block_of all s)) by (rewrite E; apply in_elt). apply filter_In in I. apply I. }
  apply filter_split in E. destruct E as (a' & b' & -> & <- & <-).
  destruct (HS a' t b' eq_refl) as (H1 & H2). split; auto. destruct H2 as [H2|(u & I & B & E)]; auto.
  right. exists u. split; auto. apply filter_In. split; auto.
  apply matches_line_iff in M. apply matches_line_iff. unfold SameBlock in *. congruence.
Qed.

Definition lines_of (l : list Span) (n : nat) : list (list Span) := map (line_of l) (seq 0 n).

Lemma nth_lines_of l n k x : nth_error (lines_of l n) k = Some x -> x = line_of l k /\ (k < n)%nat.
Proof.
  unfold lines_of. intros H. assert (K : (k < n)%nat).
  { assert (k < List.length (map (line_of l) (seq 0 n)))%nat by (apply nth_error_Some; congruence).
    rewrite map_length, seq_length in H0. auto. }
  split; auto. rewrite nth_error_map in H.
  assert (E : nth_error (seq 0 n) k = Some k).
  { rewrite (nth_error_nth' _ O) by (rewrite seq_length; auto). rewrite seq_nth by auto. reflexivity. }
  rewrite E in H. now injection H.
Qed.

Lemma lines_of_length l n : List.length (lines_of l n) = n.
Proof. unfold lines_of. now rewrite map_length, seq_length. Qed.

Lemma filter_filter {A} (f g : A -> bool) l : filter f (filter g l) = filter (fun x => g x && f x) l.
Proof.
  induction l as [|x l IH]; cbn [filter]; auto. destruct (g x); cbn [filter andb]; [|auto].
  destruct (f x); rewrite IH; auto.
Qed.

Lemma line_picked all s n : Picked (OnLine s (Z.of_nat n)) all (line_of (block_of all s) n).
Proof.
  unfold line_of, block_of. rewrite filter_filter.
  eapply Picked_filter; [|reflexivity]. intros x. cbv beta. rewrite andb_true_iff, matches_line_iff, Z.eqb_eq. reflexivity.
Qed.

Lemma Picked_fun {A} (P : A -> Prop) l g h : Picked P l g -> Picked P l h -> g = h.
Proof.
  intros H. revert h. induction H as [|x l g Hx _ IH|x l g Hx _ IH]; intros h K; inversion K; subst; auto;
    try contradiction. f_equal; auto.
Qed.

Lemma BlockLines_fun all s a b : In s all -> BlockLines all s a -> BlockLines all s b -> a = b.
Proof.
  intros _ [A1 A2] [B1 B2].
  assert (HL : List.length a = List.length b).
  { destruct (Nat.lt_trichotomy (List.length a) (List.length b)) as [L|[L|L]]; auto; exfalso.
    - destruct (nth_error b (List.length a)) as [x|] eqn:E; [|apply nth_error_None in E; lia].
      apply B1 in E. destruct E as [N P]. destruct x as [|t x]; [congruence|].
      assert (I : In t all /\ OnLine s (Z.of_nat (List.length a)) t).
      { clear - P. remember (t :: x) as g eqn:E. revert t x E. induction P; intros t0 x0 E; try discriminate E.
        - injection E as -> ->. cbn; auto.
        - destruct (IHP _ _ E). cbn; auto. }
      destruct I as [I [S E]]. specialize (A2 t I S). lia.
    - destruct (nth_error a (List.length b)) as [x|] eqn:E; [|apply nth_error_None in E; lia].
      apply A1 in E. destruct E as [N P]. destruct x as [|t x]; [congruence|].
      assert (I : In t all /\ OnLine s (Z.of_nat (List.length b)) t).
      { clear - P. remember (t :: x) as g eqn:E. revert t x E. induction P; intros t0 x0 E; try discriminate E.
        - injection E as -> ->. cbn; auto.
        - destruct (IHP _ _ E). cbn; auto. }
      destruct I as [I [S E]]. specialize (B2 t I S). lia. }
  apply nth_ext with (d := []) (d' := []); auto. intros n L.
  destruct (nth_error a n) as [x|] eqn:Ea; [|apply nth_error_None in Ea; lia].
  destruct (nth_error b n) as [y|] eqn:Eb; [|apply nth_error_None in Eb; lia].
  rewrite (nth_error_nth _ _ _ Ea), (nth_error_nth _ _ _ Eb).
  apply A1 in Ea. apply B1 in Eb. eapply Picked_fun; [apply Ea|apply Eb].
Qed.

Section Blocks.
Variable d : Dms.
Hypothesis HF : table_fields (d_fonts d).
Local Notation fonts := (d_fonts d).
Local Notation full := (char_height d =? 0).

Lemma LineRel_nonempty l t : LineRel fonts l t -> l <> [].
Proof. intros (((x & I & _) & _) & _) ->. destruct I. Qed.

Lemma LineRel_ok l t : Forall span_fields l -> LineRel fonts l t -> tl_ok t.
Proof.
  intros HS (((x & I & Hx) & _) & ((y & J & Hy) & _) & HA). unfold tl_ok. splits.
  - eapply HeightOf_u8; eauto.
  - eapply LeadOf_u8; eauto.
  - intros n E. rewrite E in HA. apply Asked_inv in HA. destruct HA as (a & s & b & -> & _ & K).
    rewrite Forall_forall in HS. destruct (HS s (in_elt _ _ _)) as (_ & HL & _). auto.
Qed.

Lemma lead_gap p l tp tl : LineRel fonts p tp -> LineRel fonts l tl -> tl_ok tp -> tl_ok tl ->
  forall g, LineGap d p l g <-> g = lead full (Some tp) tl.
Proof.
  intros (P1 & P2 & P3) (L1 & L2 & L3) Op Ol g. unfold lead, char_height, line_spacing.
  destruct (Z.eqb_spec (char_height_pixels (d_vms_cfg d)) 0) as [E|E].
  - split.
    + intros [C|n C A|a b C A Ga Gb]; [contradiction| |].
      * now rewrite (Asked_fun _ _ _ L3 A).
      * rewrite (Asked_fun _ _ _ L3 A). unfold avg_up.
        rewrite (Greatest_fun _ _ _ _ P2 Ga), (Greatest_fun _ _ _ _ L2 Gb).
        rewrite avg_half; auto. rewrite <- (Greatest_fun _ _ _ _ P2 Ga), <- (Greatest_fun _ _ _ _ L2 Gb).
        destruct Op as (_ & U1 & _), Ol as (_ & U2 & _). unfold u8 in *. lia.
    + intros ->. destruct (tl_line_spacing tl) as [n|] eqn:El.
      * now apply Lg_set.
      * unfold avg_up. rewrite avg_half; [now apply Lg_avg|].
        destruct Op as (_ & U1 & _), Ol as (_ & U2 & _). unfold u8 in *. lia.
  - split; [|intros ->; now apply Lg_cells].
    intros [C|n C A|a b C A Ga Gb]; auto; contradiction.
Qed.

Lemma Forall2_len {A B} (R : A -> B -> Prop) l m : Forall2 R l m -> List.length l = List.length m.
Proof. induction 1; cbn; auto. Qed.

Lemma Forall2_snoc_inv {A B} (R : A -> B -> Prop) l x m : Forall2 R (l ++ [x]) m ->
  exists m' y, m = m' ++ [y] /\ Forall2 R l m' /\ R x y.
Proof.
  intros H. apply Forall2_app_inv_l in H. destruct H as (m' & q & H1 & H2 & ->).
  inversion H2 as [|? y ? ? H3 H4]; subst. inversion H4; subst. eauto.
Qed.

(** The specified height of a stack is the one the model adds up. *)
Lemma StackHeight_iff ls ts : Forall2 (LineRel fonts) ls ts -> Forall tl_ok ts ->
  forall v, StackHeight d ls v <-> v = stackf full None ts.
Proof.
  intros HR HT. split.
  - intros H. revert ts HR HT.
    induction H as [|l h G|r p l v g h H IH G K]; intros ts HR HT.
    + inversion HR; subst. reflexivity.
    + inversion HR as [|? t ? ? (HR1 & _) HR']; subst. inversion HR'; subst. cbn [stackf lead].
      rewrite (Greatest_fun _ _ _ _ G HR1). lia.
    + replace (r ++ [p; l]) with ((r ++ [p]) ++ [l]) in HR by (now rewrite <- app_assoc).
      apply Forall2_snoc_inv in HR. destruct HR as (m & tl & -> & HR & HRl).
      apply Forall_app in HT. destruct HT as [HT1 HT2]. inversion HT2 as [|? ? Ol _]; subst.
      rewrite stackf_app. rewrite <- (IH m HR HT1). cbn [stackf].
      apply Forall2_snoc_inv in HR. destruct HR as (m' & tp & -> & HR & HRp).
      apply Forall_app in HT1. destruct HT1 as [_ HT1]. inversion HT1 as [|? ? Op _]; subst.
      rewrite last_of_snoc. rewrite (proj1 (lead_gap _ _ _ _ HRp HRl Op Ol g) G).
      destruct HRl as (HRl & _). rewrite (Greatest_fun _ _ _ _ K HRl). lia.
  - intros ->. revert ts HR HT. induction ls as [|l ls IH] using rev_ind; intros ts HR HT.
    + inversion HR; subst. constructor.
    + apply Forall2_snoc_inv in HR. destruct HR as (m & tl & -> & HR & HRl).
      apply Forall_app in HT. destruct HT as [HT1 HT2]. inversion HT2 as [|? ? Ol _]; subst.
      specialize (IH m HR HT1). rewrite stackf_app.
      destruct ls as [|p ls _] using rev_ind.
      * inversion HR; subst. cbn [stackf app last_of rev lead].
        replace (0 + (0 + tl_height tl + 0)) with (tl_height tl) by lia. constructor. apply HRl.
      * apply Forall2_snoc_inv in HR. destruct HR as (m' & tp & -> & HR & HRp).
        apply Forall_app in HT1. destruct HT1 as [_ HT1]. inversion HT1 as [|? ? Op _]; subst.
        rewrite last_of_snoc. cbn [stackf].
        replace ((ls ++ [p]) ++ [l]) with (ls ++ [p; l]) by (now rewrite <- app_assoc).
        replace (stackf full None (m' ++ [tp]) + (lead full (Some tp) tl + tl_height tl + 0))
          with (stackf full None (m' ++ [tp]) + lead full (Some tp) tl + tl_height tl) by lia.
        constructor; auto; [|apply HRl]. now apply (lead_gap _ _ _ _ HRp HRl Op Ol).
Qed.

(** Lines of a regular block. *)
Lemma collected_lines all s ts : Forall span_fields all -> Stacked all -> In s all ->
  collect_lines fonts (block_of all s) [] = Ok ts ->
  exists ls, BlockLines all s ls /\ Forall2 (LineRel fonts) ls ts /\ Forall tl_ok ts
    /\ 0 <= s_line s < Z.of_nat (List.length ts).
Proof.
  intros HS HK I H.
  assert (C : Collected fonts ([] ++ block_of all s) ts).
  { eapply collect_collected; [apply block_stacked; exact HK| |exact H].
    split; [intros [|n] t N; discriminate N|intros t []]. }
  cbn [app] in C. destruct C as [C1 C2]. exists (lines_of (block_of all s) (List.length ts)). splits.
  - split.
    + intros n l N. apply nth_lines_of in N. destruct N as [-> L]. split; [|apply line_picked].
      destruct (nth_error ts n) as [t|] eqn:E; [|apply nth_error_None in E; lia].
      eapply LineRel_nonempty. apply C1; eauto.
    + intros t J B. rewrite lines_of_length. apply C2. apply filter_In. split; auto. now apply matches_line_iff.
  - unfold lines_of.
    assert (G : forall k ts0, (forall n t, nth_error ts0 n = Some t -> LineRel fonts (line_of (block_of all s) (k + n)) t) ->
              Forall2 (LineRel fonts) (map (line_of (block_of all s)) (seq k (List.length ts0))) ts0).
    { intros k ts0. revert k. induction ts0 as [|t r IH]; intros k Hk; cbn [List.length seq map]; constructor.
      - specialize (Hk O t eq_refl). now rewrite Nat.add_0_r in Hk.
      - apply IH. intros n x N. specialize (Hk (S n) x N). now rewrite Nat.add_succ_r in Hk. }
    apply G. exact C1.
  - eapply collect_ok; [exact HF|apply block_of_fields; exact HS|constructor|exact H].
  - apply C2. now apply block_of_self.
  - apply C2. now apply block_of_self.
Qed.

(** ** [offset_vert] *)

Lemma vert_ok spans s a b : Forall span_fields spans -> In s spans ->
  offset_vert Debug d spans s = Val (Ok (a, b)) ->
  exists ts, collect_lines fonts (block_of spans s) [] = Ok ts /\ Forall tl_ok ts
    /\ a = stackf full None (firstn (Z.to_nat (s_line s + 1)) ts) /\ a + b = stackf full None ts
    /\ 0 <= a /\ 0 <= b /\ a + b <= rheight (s_rect s) /\ a + b < 65536
    /\ exists h, HeightOf fonts s h /\ 0 <= h <= a.
Proof.
  intros HS I H. unfold offset_vert in H. apply try_ok in H. destruct H as (ts & E & H). injection E as E.
  fold (block_of spans s) in E. exists ts. split; auto.
  assert (OK : Forall tl_ok ts) by (eapply collect_ok; [exact HF|apply block_of_fields; exact HS|constructor|exact E]).
  apply bind_val in H. destruct H as ([a' b'] & Ev & H).
  apply bind_val in H. destruct H as (t & Et & H). apply chk16_val in Et. destruct Et as [-> Lt].
  destruct (Z.leb_spec (a' + b') (rheight (rs_rect (span_state s)))) as [L|L]; [|discriminate H]. injection H as <- <-.
  assert (ON : opt_ok None) by (intros ? [=]).
  apply (vloop_inv full) in Ev; auto. cbv zeta in Ev.
  replace (rs_line (span_state s) - 0 + 1) with (s_line s + 1) in Ev by (unfold s_line; lia).
  destruct Ev as [Ea Eb]. rewrite Z.add_0_l in Ea.
  pose proof (block_of_self _ _ I) as J.
  destruct (collect_fonts fonts _ _ _ E s J) as (f & Hf).
  assert (Hh : HeightOf fonts s (f_height f)) by (exists f; auto).
  assert (U : 0 <= s_line s). { rewrite Forall_forall in HS. destruct (HS s I) as (_ & _ & U & _). unfold u8 in U. lia. }
  destruct (collect_member fonts _ _ _ s (f_height f) E J U Hh) as (k & y & N & Lk & Ly).
  assert (OK1 : Forall tl_ok (firstn (Z.to_nat (s_line s + 1)) ts)).
  { apply Forall_nth. intros i x Ni. rewrite Forall_forall in OK. apply OK.
    apply nth_error_In in Ni. rewrite <- (firstn_skipn (Z.to_nat (s_line s + 1)) ts). apply in_app_iff. auto. }
  assert (N1 : nth_error (firstn (Z.to_nat (s_line s + 1)) ts) k = Some y).
  { rewrite <- N. rewrite <- (firstn_skipn (Z.to_nat (s_line s + 1)) ts) at 2. symmetry. apply nth_error_app1.
    rewrite firstn_length. assert (k < List.length ts)%nat by (apply nth_error_Some; congruence). lia. }
  pose proof (stackf_member full _ None k y OK1 ON N1) as Ls.
  pose proof (stackf_nonneg full _ None OK1 ON) as Ha.
  assert (Hb : stackf full None ts >= stackf full None (firstn (Z.to_nat (s_line s + 1)) ts)).
  { rewrite <- (firstn_skipn (Z.to_nat (s_line s + 1)) ts) at 1. rewrite stackf_app.
    assert (0 <= stackf full (last_of None (firstn (Z.to_nat (s_line s + 1)) ts)) (skipn (Z.to_nat (s_line s + 1)) ts)); [|lia].
    apply stackf_nonneg.
    - apply Forall_nth. intros i x Ni. rewrite Forall_forall in OK. apply OK.
      apply nth_error_In in Ni. rewrite <- (firstn_skipn (Z.to_nat (s_line s + 1)) ts). apply in_app_iff. auto.
    - intros l El. unfold last_of in El. destruct (rev _) as [|z q] eqn:Er; [discriminate El|]. injection El as ->.
      rewrite Forall_forall in OK1. apply OK1. apply in_rev. rewrite Er. cbn; auto. }
  splits; auto; try lia.
  exists (f_height f). split; auto. apply HeightOf_u8 in Hh; auto. unfold u8 in Hh. lia.
Qed.

Lemma vert_eval spans s ts : Forall span_fields spans -> In s spans ->
  collect_lines fonts (block_of spans s) [] = Ok ts -> stackf full None ts < 65536 ->
  exists a b, offset_vert Debug d spans s
      = Val (if stackf full None ts <=? rheight (s_rect s) then Ok (a, b) else Err STextTooBig).
Proof.
  intros HS I E L.
  assert (OK : Forall tl_ok ts) by (eapply collect_ok; [exact HF|apply block_of_fields; exact HS|constructor|exact E]).
  assert (ON : opt_ok None) by (intros ? [=]).
  pose proof (stackf_nonneg full ts None OK ON) as Hn.
  destruct (vloop_eval full (rs_line (span_state s)) ts None 0 0 0 OK ON (Z.le_refl 0) (Z.le_refl 0) ltac:(lia)) as (a & b & Ev).
  exists a, b. unfold offset_vert. fold (block_of spans s). rewrite E. cbn [try]. rewrite Ev. cbn [bind].
  apply (vloop_inv full) in Ev; auto. cbv zeta in Ev. rewrite chk16_in by lia. cbn [bind].
  replace (a + b) with (stackf full None ts) by lia. reflexivity.
Qed.

(** ** Rows *)

Definition can_y (j : JustificationPage) : Prop := j = JpTop \/ j = JpMiddle \/ j = JpBottom.

Lemma baseline_calc spans s a b : 0 <= char_height_pixels (d_vms_cfg d) -> can_y (s_jp s) -> rect_fits (s_rect s) ->
  offset_vert Debug d spans s = Val (Ok (a, b)) -> 0 <= a -> 0 <= b -> a + b <= rheight (s_rect s) ->
  exists y, baseline Debug d spans s = Val (Ok y)
    /\ place_y (s_jp s) (char_height_pixels (d_vms_cfg d)) (ry (s_rect s) - 1) (rheight (s_rect s)) (a + b) a y.
Proof.
  intros Hc J (F1 & F2 & F3 & F4 & F5 & F6) E Ha Hb L. unfold baseline. fold (s_jp s).
  unfold s_rect in *.
  destruct J as [J|[J|J]]; rewrite J; cbn [place_y].
  - unfold baseline_top. rewrite chk16_in by lia. cbn [bind]. rewrite E. cbn [try fst].
    rewrite chk16_in by lia. cbn [bind]. eauto.
  - unfold baseline_middle. rewrite chk16_in by lia. cbn [bind]. rewrite E. cbn [try].
    do 4 (rewrite chk16_in by lia; cbn [bind]).
    unfold r_char_height, char_height. rewrite cell_mul by auto.
    match goal with |- context [cell ?c ?n] => pose proof (cell_range c n ltac:(lia)) end.
    rewrite chk16_in by lia. cbn [bind]. eexists. split; [reflexivity|]. do 2 f_equal. lia.
  - unfold baseline_bottom. rewrite chk16_in by lia. cbn [bind]. rewrite E. cbn [try snd].
    do 2 (rewrite chk16_in by lia; cbn [bind]). eexists. split; [reflexivity|]. lia.
Qed.

Lemma baseline_vert spans s r : baseline Debug d spans s = Val r ->
  exists q, offset_vert Debug d spans s = Val q /\ (forall e, r = Err e <-> q = Err e) /\ can_y (s_jp s).
Proof.
  unfold baseline. fold (s_jp s). unfold can_y.
  destruct (s_jp s); try discriminate;
    [unfold baseline_top|unfold baseline_middle|unfold baseline_bottom]; intros H;
    apply bind_val in H; destruct H as (l & _ & H);
    (destruct (offset_vert Debug d spans s) as [[[b a]|e]| |]; cbn [try] in H; try discriminate H;
      [|injection H as <-; exists (Err e); splits; auto; intros; split; congruence]);
    eexists; (splits; [reflexivity| |auto]); intros e; (split; [|discriminate]); intros ->;
    repeat (apply bind_val in H; destruct H as (? & _ & H)); discriminate H.
Qed.

Lemma place_y_box ch top h a b y ht j : 0 <= ch -> place_y j ch top h (a + b) a y ->
  0 <= b -> 0 <= ht <= a -> a + b <= h ->
  (j = JpMiddle -> on_boundary ch top /\ on_boundary ch ht) ->
  top <= y - ht /\ y <= top + h.
Proof.
  intros Hc P Hb Ha L B. destruct j; cbn [place_y] in P; try contradiction; subst y; try lia.
  destruct (B eq_refl) as [B1 B2].
  assert (B3 : on_boundary ch (top + ht)).
  { destruct B1 as [B1|(k & ->)]; [now left|]. destruct B2 as [B2|(m & ->)]; [now left|]. right. exists (k + m). lia. }
  pose proof (cell_above ch (top + (h - (a + b)) / 2 + a) (top + ht) B3 Hc ltac:(lia)).
  split; [lia|]. unfold cell in *. destruct (Z.leb_spec ch 1); [lia|].
  pose proof (Z.mul_div_le (top + (h - (a + b)) / 2 + a) ch ltac:(lia)). lia.
Qed.

(** The place of a regular span. *)
Lemma placed_y spans s y : Forall span_fields spans -> Stacked spans -> In s spans ->
  0 <= char_height_pixels (d_vms_cfg d) -> rect_fits (s_rect s) ->
  span_y Debug d spans s = Val (Ok y) -> PlacedY d spans s y.
Proof.
  intros HS HK I Hc HR H. unfold span_y in H. apply try_ok in H. destruct H as (base & Eb & H).
  apply try_ok in H. destruct H as (h & Eh & H). injection Eh as Eh. apply span_height_iff in Eh.
  apply bind_val in H. destruct H as (y' & Ey & H). injection H as <-. apply chk16_val in Ey. destruct Ey as [-> Ly].
  destruct (baseline_vert _ _ _ Eb) as (q & Eq & Hq & J).
  destruct q as [[a b]|e]; [|exfalso; pose proof (proj2 (Hq e) eq_refl) as X; discriminate X].
  destruct (vert_ok spans s a b HS I Eq) as (ts & Ec & OK & Ea & Et & Ha & Hb & L & _).
  destruct (baseline_calc spans s a b Hc J HR Eq Ha Hb L) as (y & Ey & PY). rewrite Ey in Eb. injection Eb as ->.
  destruct (collected_lines spans s ts HS HK I Ec) as (ls & HB & HL & _ & HN).
  set (k := Z.to_nat (s_line s + 1)) in *.
  exists (firstn k ls), (skipn k ls), a, (a + b), base, h. rewrite firstn_skipn.
  assert (HL1 : Forall2 (LineRel fonts) (firstn k ls) (firstn k ts)).
  { clearbody k. clear - HL. revert k. induction HL; intros [|k]; cbn [firstn]; constructor; auto. }
  assert (OK1 : Forall tl_ok (firstn k ts)).
  { apply Forall_nth. intros i x Ni. rewrite Forall_forall in OK. apply OK.
    apply nth_error_In in Ni. rewrite <- (firstn_skipn k ts). apply in_app_iff. auto. }
  splits; auto.
  - rewrite firstn_length. rewrite (Forall2_len _ _ _ HL). unfold k. lia.
  - now apply (StackHeight_iff _ _ HL1 OK1).
  - now apply (StackHeight_iff _ _ HL OK).
Qed.
End Blocks.
