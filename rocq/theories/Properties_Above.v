(** Property C88: lines of text added above others. *)

From Coq Require Import String Lia.
From Verif Require Import Base Str Multi Color Raster Font Graphic Config Sign Render
  Spec_Multi Spec_Color Spec_Font Spec_Sign Spec_Render Spec_Layout Spec_Page Spec_Fail Spec_Below Spec_Longer Spec_Above
  Proofs_Str Proofs_Norm Proofs_Above Examples_Sign Properties_Render Properties_Layout Properties_Page.
Open Scope list_scope.

(** When lines are put above the text at the bottom of a page of a message, whatever
    pages come after, the pages before stay the same; that page is shown as long as
    before, and has the same size and pixels, but for pixels that have the colour of
    a text added. *)
Theorem c88_above : forall md d ms ms' pgs e fr bs ws ys ps ps', Built d -> (md = Release -> ~ Wraps d ms /\ ~ Wraps d ms') ->
  HasPage ms pgs (fr ++ bs ++ ys) -> HasPage ms' pgs (fr ++ bs ++ ws ++ ys) -> e = List.concat pgs ->
  LinesAbove d e fr bs ws ys -> Yields md d ms (map Ok ps) -> Yields md d ms' (map Ok ps') ->
  GrownAt (shown_for d [] pgs) (fun _ _ k => exists t, AddedColor d e fr bs ws t k) ps ps'.
Proof. intros; subst. eapply longer_above; eauto. Qed.
Print Assumptions c88_above.

(** A line put above two others at the bottom of the second page. *)
Definition vx_first : list Value := [VPageTime (Some 5) (Some 5); VText (lit "B")].
Definition vx_sets : list Value := [VJustificationPage (Some JpBottom)].
Definition vx_added : list Value := [VText (lit "B"); VNewLine None].
Definition vx_text : list Value := [VText (lit "A"); VNewLine (Some 1); VColorForeground (Some (Legacy 1)); VText (lit "B")].
Definition vx_ms : str := lit "[pt5o5]B[np][jp4]A[nl1][cf1]B[np]A".
Definition vx_ms' : str := lit "[pt5o5]B[np][jp4]B[nl]A[nl1][cf1]B".

Example c88_example : Built lx_d /\ shown_for lx_d [] [vx_first] = 2%nat
  /\ HasPage vx_ms [vx_first] ([] ++ vx_sets ++ vx_text) /\ HasPage vx_ms' [vx_first] ([] ++ vx_sets ++ vx_added ++ vx_text)
  /\ LinesAbove lx_d vx_first [] vx_sets vx_added vx_text
  /\ forall ms, In ms [vx_ms; vx_ms'] -> exists ps, Yields Debug lx_d ms (map Ok ps).
Proof.
  assert (N1 : no_page_break vx_first) by (intros [E|[E|[]]]; discriminate E).
  split; [exact (proj1 px_sign)|]. split; [vm_compute; reflexivity|]. split.
  { exists (vx_first ++ VNewPage :: (vx_sets ++ vx_text) ++ VNewPage :: [VText (lit "A")]), [[VText (lit "A")]].
    split; [apply (values_meaning Debug); vm_compute; reflexivity|]. apply Sp_cons; auto. apply Sp_cons.
    - intros [E|[E|[E|[E|[E|[]]]]]]; discriminate E.
    - apply Sp_last. intros [E|[]]; discriminate E. }
  split.
  { exists (vx_first ++ VNewPage :: (vx_sets ++ vx_added ++ vx_text)), [].
    split; [apply (values_meaning Debug); vm_compute; reflexivity|]. apply Sp_cons; auto. apply Sp_last.
    intros [E|[E|[E|[E|[E|[E|[E|[]]]]]]]]; discriminate E. }
  split.
  { unfold LinesAbove. splits; try (repeat constructor; fail).
    exists [VText (lit "B")]. reflexivity. }
  assert (HY : forall ms, (match pages_take Debug lx_d 20 (pages_new lx_d ms) with
                           | Val l => (Nat.ltb (List.length l) 20 && forallb (fun r => match r with Ok _ => true | _ => false end) l)%bool
                           | _ => false end) = true -> exists ps, Yields Debug lx_d ms (map Ok ps)).
  { intros ms. destruct (pages_take Debug lx_d 20 (pages_new lx_d ms)) as [l| |] eqn:E; try discriminate.
    intros H. apply andb_prop in H as [H1 H2]. apply Nat.ltb_lt in H1.
    assert (exists ps, l = map Ok ps) as [ps ->].
    { clear - H2. induction l as [|[p|x] l IH]; cbn in H2; [now exists []| |discriminate H2].
      destruct (IH H2) as [ps ->]. now exists (p :: ps). }
    exists ps, 20%nat. split; auto. }
  intros ms [<-|[<-|[]]]; apply HY; vm_compute; reflexivity.
Qed.

(** Text at the top moves down when a line is put above it. *)
Theorem c88_top : exists d ms ms' t u p p',
  Meaning ms (map Ok [VText t]) /\ Meaning ms' (map Ok [VText u; VNewLine None; VText t])
  /\ Yields Debug d ms (map Ok [p]) /\ Yields Debug d ms' (map Ok [p'])
  /\ r_pixel (pg_raster p) 2 2 = (255, 208, 0) /\ r_pixel (pg_raster p') 2 2 = (0, 0, 0).
Proof.
  destruct (pixel_of_val (pages_take Debug lx_d 9 (pages_new lx_d (lit "A"))) 2 2 (255, 208, 0)) as (p & H & E); [vm_compute; reflexivity|].
  destruct (pixel_of_val (pages_take Debug lx_d 9 (pages_new lx_d (lit "B[nl]A"))) 2 2 (0, 0, 0)) as (p' & H' & E'); [vm_compute; reflexivity|].
  exists lx_d, (lit "A"), (lit "B[nl]A"), (lit "A"), (lit "B"), p, p'.
  split; [apply (values_meaning Debug); vm_compute; reflexivity|].
  split; [apply (values_meaning Debug); vm_compute; reflexivity|].
  split; [exists 9%nat; split; [exact H|cbn; lia]|]. split; [exists 9%nat; split; [exact H'|cbn; lia]|].
  split; [exact E|exact E'].
Qed.
Print Assumptions c88_top.
