(** Property C89: text put in front of other text on a line. *)

From Coq Require Import String Lia.
From Verif Require Import Base Str Multi Color Raster Font Graphic Config Sign Render
  Spec_Multi Spec_Color Spec_Font Spec_Sign Spec_Render Spec_Layout Spec_Page Spec_Fail Spec_Below Spec_Beside Spec_Longer Spec_Ahead
  Proofs_Str Proofs_Norm Proofs_Ahead Examples_Sign Properties_Render Properties_Layout Properties_Page.
Open Scope list_scope.

(** When text is put in front of the text at the right of the last line of a page of a
    message, whatever pages come after, the pages before stay the same; that page is
    shown as long as before, and has the same size and pixels, but for pixels that have
    the colour of a text added. *)
Theorem c89_ahead : forall md d ms ms' pgs e fr vs ws ys ps ps', Built d -> (md = Release -> ~ Wraps d ms /\ ~ Wraps d ms') ->
  HasPage ms pgs (fr ++ vs ++ ys) -> HasPage ms' pgs (fr ++ vs ++ ws ++ ys) -> e = List.concat pgs ->
  TextAhead d e fr vs ws ys -> Yields md d ms (map Ok ps) -> Yields md d ms' (map Ok ps') ->
  GrownAt (shown_for d [] pgs) (fun _ _ k => exists t, AddedColor d e fr vs ws t k) ps ps'.
Proof. intros; subst. eapply longer_ahead; eauto. Qed.
Print Assumptions c89_ahead.

(** Text put in front at the right of the second line of the second page. *)
Definition wx_first : list Value := [VPageTime (Some 5) (Some 5); VText (lit "B")].
Definition wx_start : list Value := [VText (lit "A"); VNewLine None; VText (lit "B"); VJustificationLine (Some JlRight)].
Definition wx_added : list Value := [VText (lit "B")].
Definition wx_text : list Value := [VColorForeground (Some (Legacy 1)); VText (lit "A"); VSpacingCharacterEnd; VText (lit "B")].
Definition wx_ms : str := lit "[pt5o5]B[np]A[nl]B[jl4][cf1]A[/sc]B[np]A".
Definition wx_ms' : str := lit "[pt5o5]B[np]A[nl]B[jl4]B[cf1]A[/sc]B".

Example c89_example : Built lx_d /\ shown_for lx_d [] [wx_first] = 2%nat
  /\ HasPage wx_ms [wx_first] ([] ++ wx_start ++ wx_text) /\ HasPage wx_ms' [wx_first] ([] ++ wx_start ++ wx_added ++ wx_text)
  /\ TextAhead lx_d wx_first [] wx_start wx_added wx_text
  /\ forall ms, In ms [wx_ms; wx_ms'] -> exists ps, Yields Debug lx_d ms (map Ok ps).
Proof.
  assert (NB : forall vs, forallb (fun v => match v with VNewPage => false | _ => true end) vs = true -> no_page_break vs).
  { intros vs H I. rewrite forallb_forall in H. specialize (H _ I). discriminate H. }
  split; [exact (proj1 px_sign)|]. split; [vm_compute; reflexivity|]. split.
  { exists (wx_first ++ VNewPage :: (wx_start ++ wx_text) ++ VNewPage :: [VText (lit "A")]), [[VText (lit "A")]].
    split; [apply (values_meaning Debug); vm_compute; reflexivity|].
    apply Sp_cons; [apply NB; reflexivity|]. apply Sp_cons; [apply NB; reflexivity|]. apply Sp_last, NB. reflexivity. }
  split.
  { exists (wx_first ++ VNewPage :: (wx_start ++ wx_added ++ wx_text)), [].
    split; [apply (values_meaning Debug); vm_compute; reflexivity|].
    apply Sp_cons; [apply NB; reflexivity|]. apply Sp_last, NB. reflexivity. }
  split.
  { unfold TextAhead. splits; try (repeat constructor; fail).
    - intros r [E|[E|[E|[E|[]]]]]; discriminate E.
    - intros a v b E. unfold wx_start in E.
      destruct a as [|? [|? [|? [|? a]]]]; injection E; intros; subst; try exact I;
        try (right; reflexivity); destruct a; discriminate. }
  assert (HY : forall ms, (match pages_take Debug lx_d 20 (pages_new lx_d ms) with
                           | Val l => (Nat.ltb (List.length l) 20 && forallb (fun r => match r with Ok _ => true | _ => false end) l)%bool
                           | _ => false end) = true -> exists ps, Yields Debug lx_d ms (map Ok ps)).
  { intros ms. destruct (pages_take Debug lx_d 20 (pages_new lx_d ms)) as [l| |] eqn:E; try discriminate.
    intros H. apply andb_prop in H as [H1 H2]. apply Nat.ltb_lt in H1.
    assert (exists ps, l = map Ok ps) as [ps ->].
    { clear - H2. induction l as [|[p|x] l IH]; cbn in H2; [now exists []| |discriminate H2].
      destruct (IH H2) as [ps ->]. now exists (p :: ps). }
    exists ps, 20%nat. split; auto. }
  intros ms [<-|[<-|[]]]; apply HY; vm_compute; reflexivity.
Qed.

(** Text at the left moves when other text is put in front of it. *)
Theorem c89_left : exists d ms ms' t u k p p',
  Meaning ms (map Ok [VColorForeground (Some k); VText t]) /\ Meaning ms' (map Ok [VText u; VColorForeground (Some k); VText t])
  /\ Yields Debug d ms (map Ok [p]) /\ Yields Debug d ms' (map Ok [p'])
  /\ r_pixel (pg_raster p) 2 2 = (255, 0, 0) /\ r_pixel (pg_raster p') 2 2 = (0, 0, 0).
Proof.
  destruct (pixel_of_val (pages_take Debug lx_d 9 (pages_new lx_d (lit "[cf1]A"))) 2 2 (255, 0, 0)) as (p & H & E); [vm_compute; reflexivity|].
  destruct (pixel_of_val (pages_take Debug lx_d 9 (pages_new lx_d (lit "B[cf1]A"))) 2 2 (0, 0, 0)) as (p' & H' & E'); [vm_compute; reflexivity|].
  exists lx_d, (lit "[cf1]A"), (lit "B[cf1]A"), (lit "A"), (lit "B"), (Legacy 1), p, p'.
  split; [apply (values_meaning Debug); vm_compute; reflexivity|].
  split; [apply (values_meaning Debug); vm_compute; reflexivity|].
  split; [exists 9%nat; split; [exact H|cbn; lia]|]. split; [exists 9%nat; split; [exact H'|cbn; lia]|].
  split; [exact E|exact E'].
Qed.
Print Assumptions c89_left.
