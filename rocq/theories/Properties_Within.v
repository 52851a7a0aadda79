(** Property C90: text put behind text on a line with more after it. *)

From Coq Require Import String Lia.
From Verif Require Import Base Str Multi Color Raster Font Graphic Config Sign Render
  Spec_Multi Spec_Color Spec_Font Spec_Sign Spec_Render Spec_Layout Spec_Page Spec_Fail Spec_Below Spec_Beside Spec_Longer Spec_Within
  Proofs_Str Proofs_Norm Proofs_Within Proofs_Amid Examples_Sign Properties_Render Properties_Layout Properties_Page.
Open Scope list_scope.

(** When text is put behind text on a line at the left of a page of a message, whatever
    other lines and places of that line, and whatever pages, come after, the pages before
    stay the same; that page is shown as long as before, and has the same size and
    pixels, but for pixels that have the colour of a text added. *)
Theorem c90_within : forall md d ms ms' pgs e fr vs ws ys ps ps', Built d -> (md = Release -> ~ Wraps d ms /\ ~ Wraps d ms') ->
  HasPage ms pgs (fr ++ vs ++ ys) -> HasPage ms' pgs (fr ++ vs ++ ws ++ ys) -> e = List.concat pgs ->
  TextWithin d e fr vs ws ys -> Yields md d ms (map Ok ps) -> Yields md d ms' (map Ok ps') ->
  GrownAt (shown_for d [] pgs) (fun _ _ k => exists t, AddedColor d e fr vs ws t k) ps ps'.
Proof. intros; subst. eapply longer_within; eauto. Qed.
Print Assumptions c90_within.

(** Text in another colour put behind that of the first line of the second page, with
    text at the right, another line and text at the bottom after it. *)
Definition yx_first : list Value := [VPageTime (Some 5) (Some 5); VText (lit "B")].
Definition yx_start : list Value := [VText (lit "A")].
Definition yx_added : list Value := [VColorForeground (Some (Legacy 1)); VText (lit "B"); VColorForeground None].
Definition yx_after : list Value :=
  [VJustificationLine (Some JlRight); VText (lit "B"); VNewLine None; VText (lit "A"); VJustificationPage (Some JpBottom); VText (lit "B")].
Definition yx_ms : str := lit "[pt5o5]B[np]A[jl4]B[nl]A[jp4]B[np]A".
Definition yx_ms' : str := lit "[pt5o5]B[np]A[cf1]B[cf][jl4]B[nl]A[jp4]B".

Example c90_example : Built lx_d /\ shown_for lx_d [] [yx_first] = 2%nat
  /\ HasPage yx_ms [yx_first] ([] ++ yx_start ++ yx_after) /\ HasPage yx_ms' [yx_first] ([] ++ yx_start ++ yx_added ++ yx_after)
  /\ TextWithin lx_d yx_first [] yx_start yx_added yx_after
  /\ forall ms, In ms [yx_ms; yx_ms'] -> exists ps, Yields Debug lx_d ms (map Ok ps).
Proof.
  assert (NB : forall vs, forallb (fun v => match v with VNewPage => false | _ => true end) vs = true -> no_page_break vs).
  { intros vs H I. rewrite forallb_forall in H. specialize (H _ I). discriminate H. }
  split; [exact (proj1 px_sign)|]. split; [vm_compute; reflexivity|]. split.
  { exists (yx_first ++ VNewPage :: (yx_start ++ yx_after) ++ VNewPage :: [VText (lit "A")]), [[VText (lit "A")]].
    split; [apply (values_meaning Debug); vm_compute; reflexivity|].
    apply Sp_cons; [apply NB; reflexivity|]. apply Sp_cons; [apply NB; reflexivity|]. apply Sp_last, NB. reflexivity. }
  split.
  { exists (yx_first ++ VNewPage :: (yx_start ++ yx_added ++ yx_after)), [].
    split; [apply (values_meaning Debug); vm_compute; reflexivity|].
    apply Sp_cons; [apply NB; reflexivity|]. apply Sp_last, NB. reflexivity. }
  split.
  { unfold TextWithin. splits; try (repeat constructor; fail).
    - intros r [E|[]]; discriminate E.
    - intros a v b E. unfold yx_start, yx_after in E. cbn [app] in E.
      destruct a as [|? [|? [|? [|? [|? [|? [|? a]]]]]]]; injection E; intros; subst; try exact I;
        try (right; reflexivity); try (right; right; reflexivity); destruct a; discriminate.
    - exists [], (VText (lit "A")). split; [reflexivity|exact I].
    - exists (VJustificationLine (Some JlRight)), (tl yx_after). split; [reflexivity|exact I]. }
  assert (HY : forall ms, (match pages_take Debug lx_d 20 (pages_new lx_d ms) with
                           | Val l => (Nat.ltb (List.length l) 20 && forallb (fun r => match r with Ok _ => true | _ => false end) l)%bool
                           | _ => false end) = true -> exists ps, Yields Debug lx_d ms (map Ok ps)).
  { intros ms. destruct (pages_take Debug lx_d 20 (pages_new lx_d ms)) as [l| |] eqn:E; try discriminate.
    intros H. apply andb_prop in H as [H1 H2]. apply Nat.ltb_lt in H1.
    assert (exists ps, l = map Ok ps) as [ps ->].
    { clear - H2. induction l as [|[p|x] l IH]; cbn in H2; [now exists []| |discriminate H2].
      destruct (IH H2) as [ps ->]. now exists (p :: ps). }
    exists ps, 20%nat. split; auto. }
  intros ms [<-|[<-|[]]]; apply HY; vm_compute; reflexivity.
Qed.

(** The same when text is put in front of text at the right. *)
Theorem c90_ahead : forall md d ms ms' pgs e fr vs ws ys zs ps ps', Built d -> (md = Release -> ~ Wraps d ms /\ ~ Wraps d ms') ->
  HasPage ms pgs (fr ++ vs ++ ys ++ zs) -> HasPage ms' pgs (fr ++ vs ++ ws ++ ys ++ zs) -> e = List.concat pgs ->
  TextWithinRight d e fr vs ws ys zs -> Yields md d ms (map Ok ps) -> Yields md d ms' (map Ok ps') ->
  GrownAt (shown_for d [] pgs) (fun _ _ k => exists t, AddedColor d e fr vs ws t k) ps ps'.
Proof. intros; subst. eapply longer_amid; eauto. Qed.
Print Assumptions c90_ahead.

(** Text put in front at the right of the first line, with another line and text at the
    bottom after it. *)
Definition zx_start : list Value := [VText (lit "A"); VJustificationLine (Some JlRight)].
Definition zx_added : list Value := [VText (lit "B")].
Definition zx_text : list Value := [VColorForeground (Some (Legacy 1)); VText (lit "A")].
Definition zx_after : list Value :=
  [VNewLine None; VJustificationLine (Some JlLeft); VText (lit "A"); VJustificationPage (Some JpBottom); VText (lit "B")].
Definition zx_ms : str := lit "A[jl4][cf1]A[nl][jl2]A[jp4]B[np]A".
Definition zx_ms' : str := lit "A[jl4]B[cf1]A[nl][jl2]A[jp4]B".

Example c90_ahead_example : Built lx_d
  /\ HasPage zx_ms [] ([] ++ zx_start ++ zx_text ++ zx_after) /\ HasPage zx_ms' [] ([] ++ zx_start ++ zx_added ++ zx_text ++ zx_after)
  /\ TextWithinRight lx_d [] [] zx_start zx_added zx_text zx_after
  /\ forall ms, In ms [zx_ms; zx_ms'] -> exists ps, Yields Debug lx_d ms (map Ok ps).
Proof.
  assert (NB : forall vs, forallb (fun v => match v with VNewPage => false | _ => true end) vs = true -> no_page_break vs).
  { intros vs H I. rewrite forallb_forall in H. specialize (H _ I). discriminate H. }
  split; [exact (proj1 px_sign)|]. split.
  { exists ((zx_start ++ zx_text ++ zx_after) ++ VNewPage :: [VText (lit "A")]), [[VText (lit "A")]].
    split; [apply (values_meaning Debug); vm_compute; reflexivity|].
    apply Sp_cons; [apply NB; reflexivity|]. apply Sp_last, NB. reflexivity. }
  split.
  { exists (zx_start ++ zx_added ++ zx_text ++ zx_after), [].
    split; [apply (values_meaning Debug); vm_compute; reflexivity|]. apply Sp_last, NB. reflexivity. }
  split.
  { unfold TextWithinRight. splits; try (repeat constructor; fail).
    - intros r [E|[E|[]]]; discriminate E.
    - intros a v b E. unfold zx_start, zx_text, zx_after in E. cbn [app] in E.
      destruct a as [|? [|? [|? [|? [|? [|? [|? [|? [|? a]]]]]]]]]; injection E; intros; subst; try exact I;
        try (right; reflexivity); try (left; reflexivity); try (right; right; reflexivity); destruct a; discriminate.
    - exists [VColorForeground (Some (Legacy 1))], (VText (lit "A")). split; [reflexivity|exact I].
    - exists (VNewLine None), (tl zx_after). split; [reflexivity|exact I]. }
  assert (HY : forall ms, (match pages_take Debug lx_d 20 (pages_new lx_d ms) with
                           | Val l => (Nat.ltb (List.length l) 20 && forallb (fun r => match r with Ok _ => true | _ => false end) l)%bool
                           | _ => false end) = true -> exists ps, Yields Debug lx_d ms (map Ok ps)).
  { intros ms. destruct (pages_take Debug lx_d 20 (pages_new lx_d ms)) as [l| |] eqn:E; try discriminate.
    intros H. apply andb_prop in H as [H1 H2]. apply Nat.ltb_lt in H1.
    assert (exists ps, l = map Ok ps) as [ps ->].
    { clear - H2. induction l as [|[p|x] l IH]; cbn in H2; [now exists []| |discriminate H2].
      destruct (IH H2) as [ps ->]. now exists (p :: ps). }
    exists ps, 20%nat. split; auto. }
  intros ms [<-|[<-|[]]]; apply HY; vm_compute; reflexivity.
Qed.

(** Text in the middle of a line moves when other text is put behind it. *)
Theorem c90_center : exists d ms ms' t u k p p',
  Meaning ms (map Ok [VJustificationLine (Some JlCenter); VText t; VNewLine None])
  /\ Meaning ms' (map Ok [VJustificationLine (Some JlCenter); VText t; VColorForeground (Some k); VText u; VColorForeground None; VNewLine None])
  /\ Yields Debug d ms (map Ok [p]) /\ Yields Debug d ms' (map Ok [p'])
  /\ r_pixel (pg_raster p) 10 2 = (255, 208, 0) /\ r_pixel (pg_raster p') 10 2 = (0, 0, 0).
Proof.
  destruct (pixel_of_val (pages_take Debug lx_d 9 (pages_new lx_d (lit "[jl3]A[nl]"))) 10 2 (255, 208, 0)) as (p & H & E); [vm_compute; reflexivity|].
  destruct (pixel_of_val (pages_take Debug lx_d 9 (pages_new lx_d (lit "[jl3]A[cf1]B[cf][nl]"))) 10 2 (0, 0, 0)) as (p' & H' & E'); [vm_compute; reflexivity|].
  exists lx_d, (lit "[jl3]A[nl]"), (lit "[jl3]A[cf1]B[cf][nl]"), (lit "A"), (lit "B"), (Legacy 1), p, p'.
  split; [apply (values_meaning Debug); vm_compute; reflexivity|].
  split; [apply (values_meaning Debug); vm_compute; reflexivity|].
  split; [exists 9%nat; split; [exact H|cbn; lia]|]. split; [exists 9%nat; split; [exact H'|cbn; lia]|].
  split; [exact E|exact E'].
Qed.
Print Assumptions c90_center.
