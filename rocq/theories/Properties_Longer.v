(** Property C87: text added to any page of a message. *)

From Coq Require Import String Lia.
From Verif Require Import Base Str Multi Color Raster Font Graphic Config Sign Render
  Spec_Multi Spec_Color Spec_Font Spec_Sign Spec_Render Spec_Layout Spec_Page Spec_Fail Spec_Below Spec_Beside Spec_Apart Spec_Longer
  Proofs_Str Proofs_Norm Proofs_Longer Examples_Sign Properties_Render Properties_Layout Properties_Page.
Open Scope list_scope.

(** When lines are added below the text at the top of a page of a message, whatever
    pages come after, the pages before stay the same; that page is shown as long as
    before, and has the same size and pixels, but for pixels below all the lines
    there were, which may have the colour of a text added. *)
Theorem c87_below : forall md d ms ms' pgs e fr vs ws ps ps', Built d -> (md = Release -> ~ Wraps d ms /\ ~ Wraps d ms') ->
  HasPage ms pgs (fr ++ vs) -> HasPage ms' pgs (fr ++ vs ++ ws) -> e = List.concat pgs -> LinesBelow d e fr vs ws ->
  Yields md d ms (map Ok ps) -> Yields md d ms' (map Ok ps') ->
  GrownAt (shown_for d [] pgs)
    (fun _ y k => exists t, AddedColor d e fr vs ws t k /\ BelowAll d (texts d (place_in d e fr vs) [] vs) y) ps ps'.
Proof. intros; subst. eapply longer_below; eauto. Qed.
Print Assumptions c87_below.

(** When text is put behind that of a line at the left, pixels right of the text
    there was may change. *)
Theorem c87_behind : forall md d ms ms' pgs e fr vs ws ps ps', Built d -> (md = Release -> ~ Wraps d ms /\ ~ Wraps d ms') ->
  HasPage ms pgs (fr ++ vs) -> HasPage ms' pgs (fr ++ vs ++ ws) -> e = List.concat pgs -> TextBehind d e fr vs ws ->
  Yields md d ms (map Ok ps) -> Yields md d ms' (map Ok ps') ->
  GrownAt (shown_for d [] pgs)
    (fun x _ k => exists t, AddedColor d e fr vs ws t k /\ RightOfRun d (texts d (place_in d e fr vs) [] vs) t x) ps ps'.
Proof. intros; subst. eapply longer_behind; eauto. Qed.
Print Assumptions c87_behind.

(** When text is added with a later justification, pixels may change to its colour. *)
Theorem c87_apart : forall md d ms ms' pgs e fr vs ws ps ps', Built d -> (md = Release -> ~ Wraps d ms /\ ~ Wraps d ms') ->
  HasPage ms pgs (fr ++ vs) -> HasPage ms' pgs (fr ++ vs ++ ws) -> e = List.concat pgs ->
  LaterBlock d e fr vs ws \/ LaterRun d e fr vs ws ->
  Yields md d ms (map Ok ps) -> Yields md d ms' (map Ok ps') ->
  GrownAt (shown_for d [] pgs) (fun _ _ k => exists t, AddedColor d e fr vs ws t k) ps ps'.
Proof. intros; subst. eapply longer_apart; eauto. Qed.
Print Assumptions c87_apart.

(** The first page sets an off time; [B] is added to the second. *)
Definition gx_first : list Value := [VPageTime (Some 5) (Some 5); VText (lit "B")].
Definition gx_ms : str := lit "[pt5o5]B[np]A[np]B".

Example c87_example : Built lx_d /\ shown_for lx_d [] [gx_first] = 2%nat
  /\ HasPage gx_ms [gx_first] ([] ++ [VText (lit "A")])
  /\ HasPage (lit "[pt5o5]B[np]A[nl]B") [gx_first] ([] ++ [VText (lit "A")] ++ [VNewLine None; VText (lit "B")])
  /\ LinesBelow lx_d gx_first [] [VText (lit "A")] [VNewLine None; VText (lit "B")]
  /\ HasPage (lit "[pt5o5]B[np]A[cf1]B") [gx_first] ([] ++ [VText (lit "A")] ++ [VColorForeground (Some (Legacy 1)); VText (lit "B")])
  /\ TextBehind lx_d gx_first [] [VText (lit "A")] [VColorForeground (Some (Legacy 1)); VText (lit "B")]
  /\ HasPage (lit "[pt5o5]B[np]A[jl4]B") [gx_first] ([] ++ [VText (lit "A")] ++ [VJustificationLine (Some JlRight); VText (lit "B")])
  /\ LaterRun lx_d gx_first [] [VText (lit "A")] [VJustificationLine (Some JlRight); VText (lit "B")]
  /\ forall ms, In ms [gx_ms; lit "[pt5o5]B[np]A[nl]B"; lit "[pt5o5]B[np]A[cf1]B"; lit "[pt5o5]B[np]A[jl4]B"] ->
     exists ps, Yields Debug lx_d ms (map Ok ps).
Proof.
  assert (HP : forall ms pg rest, values Debug ms = map Val (map Ok (gx_first ++ VNewPage :: pg ++ rest)) ->
    no_page_break pg -> rest = [] \/ rest = [VNewPage; VText (lit "B")] -> HasPage ms [gx_first] pg).
  { intros ms pg rest V N R. exists (gx_first ++ VNewPage :: pg ++ rest).
    assert (N1 : no_page_break gx_first) by (intros [E|[E|[]]]; discriminate E).
    destruct R as [-> | ->].
    - exists []. split; [exact (proj1 (values_meaning Debug _ _) V)|]. apply Sp_cons; auto. rewrite app_nil_r. now apply Sp_last.
    - exists [[VText (lit "B")]]. split; [exact (proj1 (values_meaning Debug _ _) V)|]. apply Sp_cons; auto. apply Sp_cons; auto.
      apply Sp_last. intros [E|[]]; discriminate E. }
  assert (RG : forall ws, Orderly lx_d (gx_first ++ []) ([VText (lit "A")] ++ ws) -> Regular lx_d gx_first [] [VText (lit "A")] ws).
  { intros ws HO. split; [constructor|]. split; [intros r [E|[]]; discriminate E|exact HO]. }
  split; [exact (proj1 px_sign)|]. split; [vm_compute; reflexivity|].
  split; [apply (HP _ _ [VNewPage; VText (lit "B")]); [vm_compute; reflexivity|intros [E|[]]; discriminate E|now right]|].
  split; [apply (HP _ _ []); [vm_compute; reflexivity|intros [E|[E|[E|[]]]]; discriminate E|now left]|].
  split.
  { split; [apply RG|split; [vm_compute; reflexivity|split; [eexists; eexists; reflexivity|repeat constructor]]].
    intros a v b E. cbn [app] in E.
    repeat (destruct a as [|? a]; cbn in E; [injection E as <- <-; cbn; first [exact I|right; reflexivity]|injection E as <- E]).
    destruct a; discriminate E. }
  split; [apply (HP _ _ []); [vm_compute; reflexivity|intros [E|[E|[E|[]]]]; discriminate E|now left]|].
  split.
  { split; [apply RG|split; [vm_compute; reflexivity|split; [exists [], (VText (lit "A")); split; [reflexivity|exact I]|repeat constructor]]].
    intros a v b E. cbn [app] in E.
    repeat (destruct a as [|? a]; cbn in E; [injection E as <- <-; cbn; first [exact I|right; reflexivity]|injection E as <- E]).
    destruct a; discriminate E. }
  split; [apply (HP _ _ []); [vm_compute; reflexivity|intros [E|[E|[E|[]]]]; discriminate E|now left]|].
  split.
  { split; [apply RG|split; [exists [], (VText (lit "A")); split; [reflexivity|exact I]|]].
    - intros a v b E. cbn [app] in E.
      repeat (destruct a as [|? a]; cbn in E; [injection E as <- <-; cbn; first [exact I|right; reflexivity]|injection E as <- E]).
      destruct a; discriminate E.
    - exists (Some JlRight), [VText (lit "B")]. split; [reflexivity|]. split; [repeat constructor|vm_compute; reflexivity]. }
  assert (HY : forall ms, (match pages_take Debug lx_d 20 (pages_new lx_d ms) with
                           | Val l => (Nat.ltb (List.length l) 20 && forallb (fun r => match r with Ok _ => true | _ => false end) l)%bool
                           | _ => false end) = true -> exists ps, Yields Debug lx_d ms (map Ok ps)).
  { intros ms. destruct (pages_take Debug lx_d 20 (pages_new lx_d ms)) as [l| |] eqn:E; try discriminate.
    intros H. apply andb_prop in H as [H1 H2]. apply Nat.ltb_lt in H1.
    assert (exists ps, l = map Ok ps) as [ps ->].
    { clear - H2. induction l as [|[p|x] l IH]; cbn in H2; [now exists []| |discriminate H2].
      destruct (IH H2) as [ps ->]. now exists (p :: ps). }
    exists ps, 20%nat. split; auto. }
  intros ms [<-|[<-|[<-|[<-|[]]]]]; apply HY; vm_compute; reflexivity.
Qed.
