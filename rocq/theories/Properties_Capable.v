(** Property C82: signs that support more tags. *)

From Coq Require Import String.
From Verif Require Import Base Str Multi Color Raster Font Graphic Config Sign Render
  Spec_Multi Spec_Color Spec_Font Spec_Sign Spec_Render Spec_Gamut Spec_Alike Spec_Capable
  Proofs_Str Proofs_Split Proofs_Pages Proofs_Sign Proofs_Alike Proofs_Capable
  Examples_Sign Properties_Render Properties_Layout Properties_Page Properties_Safe Properties_Alike.
Open Scope list_scope.

(** A message that renders on a sign, or fails there for another reason than a tag
    that is not supported, does the same on each sign of the same sizes, colours and
    defaults that has the same fonts and graphics of the numbers it names, and
    supports at least the tags in it that the first supports. *)
Theorem c82_more : forall md d d' n ms l, SameLook d d' -> SameStock d d' ms -> MoreTags d d' ms ->
  pages_take md d n (pages_new d ms) = Val l -> Forall NoTagError l ->
  pages_take md d' n (pages_new d' ms) = Val l.
Proof. exact more_pages. Qed.
Print Assumptions c82_more.

(** Signs that support the same of the tags in a message render it alike, errors and
    panics included: support of other tags does not matter. *)
Theorem c82_same : forall md d d' n ms, SameLook d d' -> MoreTags d d' ms -> MoreTags d' d ms ->
  (forall k, UsesFont d ms k -> SameFont d d' k) -> (forall k, UsesGraphic ms k -> SameGraphic d d' k) ->
  pages_take md d n (pages_new d ms) = pages_take md d' n (pages_new d' ms).
Proof. intros md d d' n ms HS H1 H2. apply same_tags_pages; [exact HS|]. intros v HV. split; auto. Qed.
Print Assumptions c82_same.

(** A sign that supports three kinds of tags, and no more. *)
Definition kx_small : Dms :=
  mkDms (d_sign_cfg ax_other) (d_vms_cfg ax_other) (d_fonts ax_other)
    (mkMultiCfg (Legacy 0) (Legacy 9) 7 8 1 JlLeft JpTop 30 0 2 Color24Bit (tag_set [TFo; TG; TNl]) 6 500)
    (d_graphics ax_other).

Example c82_example : SameLook kx_small lx_d /\ SameStock kx_small lx_d ax_ms /\ MoreTags kx_small lx_d ax_ms
  /\ MoreTags lx_d kx_small ax_ms
  /\ exists q, pages_take Debug kx_small 3 (pages_new kx_small ax_ms) = Val [Ok q]
     /\ pages_take Debug lx_d 3 (pages_new lx_d ax_ms) = Val [Ok q].
Proof.
  assert (L : SameLook kx_small lx_d) by (unfold SameLook; cbn; splits; reflexivity).
  assert (S : SameStock kx_small lx_d ax_ms).
  { split; intros k H; assert (k = 1) as ->.
    - destruct H as [|n v H]; [reflexivity|]. apply ax_says in H. cbn in H.
      repeat (destruct H as [H|H]; [try discriminate H; injection H; auto|]). contradiction.
    - intros f. rewrite <- !FirstFont_lookup. reflexivity.
    - destruct H as [n pos H]. apply ax_says in H. cbn in H.
      repeat (destruct H as [H|H]; [try discriminate H; injection H; auto|]). contradiction.
    - intros f. rewrite <- !FirstGraphic_lookup. reflexivity. }
  assert (A : forall v, Says ax_ms v -> Supports lx_d v /\ Supports kx_small v).
  { intros v H. apply ax_says in H. cbn in H.
    repeat (destruct H as [<-|H]; [split; intros t W; apply value_tag_iff in W; cbn in W; try discriminate W; injection W as <-; reflexivity|]).
    contradiction. }
  assert (M : MoreTags kx_small lx_d ax_ms) by (intros v H _; apply (A v H)).
  splits; auto; [intros v H _; apply (A v H)|].
  assert (E : shapes (pages_take Debug kx_small 3 (pages_new kx_small ax_ms)) = Val [ShPage 20 12 30]) by (vm_compute; reflexivity).
  apply shapes_val in E as (l & HL & E). destruct l as [|[q|] [|]]; try discriminate E.
  exists q. split; [exact HL|]. apply (c82_more Debug kx_small lx_d 3 ax_ms _ L S M HL).
  constructor; [discriminate|constructor].
Qed.

(** A tag of the message that only one sign supports does matter. *)
Theorem c82_needed : exists d d' ms, SameLook d d' /\ SameStock d d' ms /\ MoreTags d d' ms
  /\ shapes (pages_take Debug d 2 (pages_new d ms)) = Val [ShErr (SUnsupportedTag (lit "[pt9o]")); ShErr (SUnsupportedTag (lit "[pt9o]"))]
  /\ shapes (pages_take Debug d' 2 (pages_new d' ms)) = Val [ShPage 20 12 9].
Proof.
  exists kx_small, lx_d, (lit "[pt9]A").
  assert (A : forall v, Says (lit "[pt9]A") v -> In v [VPageTime (Some 9) None; VText (lit "A")]).
  { intros v (ts & t & HT & HI & HD). apply (split_iff Debug) in HT. vm_compute in HT. injection HT as <-.
    pose proof (Proofs_Fail.denotes_vals [t] [Ok v] (Forall2_cons _ _ HD (Forall2_nil _))) as E. injection E as E. clear HD.
    repeat (destruct HI as [<-|HI]; [vm_compute in E; injection E as <-; cbn; tauto|]). contradiction. }
  splits.
  - unfold SameLook; cbn; splits; reflexivity.
  - split; intros k H.
    + assert (k = 1) as ->.
      { destruct H as [|n v H]; [reflexivity|]. apply A in H. cbn in H. destruct H as [H|[H|[]]]; discriminate H. }
      intros f. rewrite <- !FirstFont_lookup. reflexivity.
    + destruct H as [n pos H]. apply A in H. cbn in H. destruct H as [H|[H|[]]]; discriminate H.
  - intros v H _. apply A in H. cbn in H.
    repeat (destruct H as [<-|H]; [intros t W; apply value_tag_iff in W; cbn in W; try discriminate W; injection W as <-; reflexivity|]).
    contradiction.
  - vm_compute. reflexivity.
  - vm_compute. reflexivity.
Qed.
Print Assumptions c82_needed.
