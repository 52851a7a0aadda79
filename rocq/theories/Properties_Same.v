(** Property C50: a normalized message renders the same. *)

From Coq Require Import String.
From Verif Require Import Base Str Multi Color Raster Font Graphic Config Sign Render
  Spec_Multi Spec_Font Spec_Graphic Spec_Sign Spec_Render Spec_Same Spec_Layout Spec_Page Spec_Join Proofs_Str Proofs_Norm Proofs_Same Proofs_Regular
  Examples_Sign Properties_Render Properties_Layout Properties_Page.
Open Scope list_scope.

(** Full claim: for every message that renders without error.  False as the
    theorems below show.  It holds, on every sign and in both modes, when
    redundant [jl] tags only stand at the start of a run of texts, no two texts
    are joined, hexadecimal characters are below 10 and nothing can be seen of
    what follows the last shown value.  The normalized message then renders the
    first pages, with the same times; the pages that go have one colour, on a
    sign built with blank glyphs for spaces. *)
Theorem c50_partial : forall md d ms vs s ps, Meaning ms (map Ok vs) -> Forall small_hex vs ->
  JlRegular vs -> TextsApart vs -> TailSilent vs ->
  normalize md ms = Val s -> Yields md d ms (map Ok ps) ->
  exists ps' ps'', ps = ps' ++ ps'' /\ Yields md d s (map Ok ps')
    /\ (Built d -> BlankSpaces d -> Forall (fun P => OneColour (pg_raster P)) ps'').
Proof. exact normalize_same. Qed.
Print Assumptions c50_partial.

(** Redundant tags go, the blank second page goes. *)
Definition nx_text : str := lit "[cf][jl3]A[nl][jl3][cf1]B[cf1][jl4]A[nl][jp3][np][cf] [jl2][nl]".
Definition nx_values : list Value :=
  [VColorForeground None; VJustificationLine (Some JlCenter); VText (lit "A"); VNewLine None;
   VJustificationLine (Some JlCenter); VColorForeground (Some (Legacy 1)); VText (lit "B");
   VColorForeground (Some (Legacy 1)); VJustificationLine (Some JlRight); VText (lit "A"); VNewLine None;
   VJustificationPage (Some JpMiddle); VNewPage; VColorForeground None; VText (lit " ");
   VJustificationLine (Some JlLeft); VNewLine None].
Definition nx_normal : str := lit "[jl3]A[nl][cf1]B[jl4]A".

(** All the ways a list can be cut at a given kind of value. *)
Ltac cuts a E :=
  repeat (destruct a as [|? a]; cbn [app] in E;
    [try discriminate E | first [discriminate E | injection E as <- E]]).

Example c50_example : Meaning nx_text (map Ok nx_values) /\ Forall small_hex nx_values
  /\ JlRegular nx_values /\ TextsApart nx_values /\ TailSilent nx_values
  /\ normalize Debug nx_text = Val nx_normal
  /\ (exists ps, Yields Debug lx_d nx_text (map Ok ps) /\ List.length ps = 2%nat)
  /\ Built lx_d /\ BlankSpaces lx_d
  /\ (exists ps, Yields Debug lx_d nx_normal (map Ok ps) /\ List.length ps = 1%nat).
Proof.
  assert (M : Meaning nx_text (map Ok nx_values)) by (apply (values_meaning Debug); vm_compute; reflexivity).
  splits.
  - exact M.
  - repeat constructor.
  - intros a j b E R X. unfold nx_values in E.
    cuts a E; injection E as <- E; destruct R as [_ R]; try discriminate R; try reflexivity.
  - intros a t m u b E _ _ _ F. unfold nx_values in E.
    cuts a E; injection E as _ E; cuts m E;
      repeat match goal with H : Forall _ (_ :: _) |- _ => inversion H; clear H; subst end;
      repeat match goal with H : Redundant _ _ |- _ => destruct H as [? H]; first [discriminate | clear H] end.
  - apply tail_silent_intro; [apply (Meaning_oks_ok _ _ M)|]. vm_compute. auto.
  - vm_compute. reflexivity.
  - eapply (yields_of Debug lx_d nx_text 9 2); [vm_compute; reflexivity|cbn; lia|repeat constructor|reflexivity].
  - apply px_sign.
  - apply px_sign.
  - eapply (yields_of Debug lx_d nx_normal 9 1); [vm_compute; reflexivity|cbn; lia|repeat constructor|reflexivity].
Qed.

(** Texts may be joined, on a sign with whole glyphs, when the layout of every text
    rectangle is regular. *)
Theorem c50_join_partial : forall d ms vs s ps, Built d -> WholeGlyphs d ->
  Meaning ms (map Ok vs) -> Forall small_hex vs ->
  JlRegular vs -> Regular d vs -> TailSilent vs ->
  normalize Debug ms = Val s -> Yields Debug d ms (map Ok ps) ->
  exists ps' ps'', ps = ps' ++ ps'' /\ (forall md, Yields md d s (map Ok ps'))
    /\ (BlankSpaces d -> Forall (fun P => OneColour (pg_raster P)) ps'').
Proof. exact normalize_joined. Qed.
Print Assumptions c50_join_partial.

(** Three texts are joined, then two after [jl4], and two on the second page. *)
Definition jx_text : str := lit "A[cf]B[cf]A[jl4]B[cf]A[nl][jl4]A[np][jl2]B[cf]B".
Definition jx_values : list Value :=
  [VText (lit "A"); VColorForeground None; VText (lit "B"); VColorForeground None; VText (lit "A");
   VJustificationLine (Some JlRight); VText (lit "B"); VColorForeground None; VText (lit "A"); VNewLine None;
   VJustificationLine (Some JlRight); VText (lit "A"); VNewPage;
   VJustificationLine (Some JlLeft); VText (lit "B"); VColorForeground None; VText (lit "B")].
Definition jx_normal : str := lit "ABA[jl4]BA[nl]A[np][jl2]BB".

Example c50_join_example : Built lx_d /\ Usable lx_d /\ WholeGlyphs lx_d /\ BlankSpaces lx_d
  /\ Meaning jx_text (map Ok jx_values) /\ Forall small_hex jx_values
  /\ JlRegular jx_values /\ Regular lx_d jx_values /\ TailSilent jx_values
  /\ normalize Debug jx_text = Val jx_normal
  /\ (exists ps, Yields Debug lx_d jx_text (map Ok ps) /\ List.length ps = 2%nat)
  /\ ~ TextsApart jx_values.
Proof.
  assert (M : Meaning jx_text (map Ok jx_values)) by (apply (values_meaning Debug); vm_compute; reflexivity).
  splits.
  - apply px_sign.
  - apply px_sign.
  - intros f If U. split; [|intros X; discriminate X]. destruct If as [<-|[<-|[]]]; intros c Ic Uc;
      cbn in Ic; repeat destruct Ic as [<-|Ic]; try contradiction; cbn; try lia; exfalso; now apply Uc.
  - apply px_sign.
  - exact M.
  - repeat constructor.
  - intros a j b E R X. unfold jx_values in E.
    cuts a E; injection E as <- E; destruct R as [_ R]; try discriminate R; try reflexivity.
  - apply machine_regular. vm_compute. intuition congruence.
  - apply tail_silent_intro; [apply (Meaning_oks_ok _ _ M)|]. vm_compute. auto.
  - vm_compute. reflexivity.
  - eapply (yields_of Debug lx_d jx_text 9 2); [vm_compute; reflexivity|cbn; lia|repeat constructor|reflexivity].
  - intros TA. apply (TA [] (lit "A") [VColorForeground None] (lit "B") (skipn 3 jx_values) eq_refl).
    + repeat constructor; discriminate.
    + repeat constructor; discriminate.
    + constructor. apply (Spec_Multi.Sh_text (lit "B") 66); [now left|]. unfold space. lia.
    + repeat constructor.
Qed.

(** ** Where the claim fails *)

(** A message on a sign that renders as one page, while its normalized form
    renders as one page with another picture. *)
Definition ShowsOther (d : Dms) (ms s : str) : Prop :=
  Built d /\ normalize Debug ms = Val s
  /\ exists p q x y, Yields Debug d ms [Ok p] /\ Yields Debug d s [Ok q]
     /\ on_raster (pg_raster p) x y /\ on_raster (pg_raster q) x y
     /\ r_pixel (pg_raster p) x y <> r_pixel (pg_raster q) x y.

Lemma shows_other ms s x y c e : normalize Debug ms = Val s ->
  pixel_of (pages_take Debug lx_d 2 (pages_new lx_d ms)) x y = Some c ->
  pixel_of (pages_take Debug lx_d 2 (pages_new lx_d s)) x y = Some e ->
  shapes (pages_take Debug lx_d 2 (pages_new lx_d ms)) = Val [ShPage 20 12 30] ->
  shapes (pages_take Debug lx_d 2 (pages_new lx_d s)) = Val [ShPage 20 12 30] ->
  0 <= x < 20 -> 0 <= y < 12 -> c <> e -> ShowsOther lx_d ms s.
Proof.
  intros N P Q SP SQ X Y D. split; [apply px_sign|]. split; [exact N|].
  apply pixel_of_val in P as (p & P & <-). apply pixel_of_val in Q as (q & Q & <-).
  rewrite P in SP. rewrite Q in SQ. cbn in SP, SQ. injection SP as P1 P2 _. injection SQ as Q1 Q2 _.
  exists p, q, x, y. unfold on_raster. rewrite P1, P2, Q1, Q2. splits; auto; try lia;
    exists 2%nat; (split; [assumption|cbn; lia]).
Qed.

(** A redundant [jl] in the middle of a run: without it the texts no longer
    overlap. *)
Theorem c50_jl_refuted : exists d, ShowsOther d (lit "[jl2]A[jl2]B") (lit "[jl2]AB").
Proof. exists lx_d. apply (shows_other _ _ 4 0 (0, 0, 0) (255, 208, 0)); try (vm_compute; reflexivity); [lia|lia|discriminate]. Qed.
Print Assumptions c50_jl_refuted.

(** Texts joined: without the redundant [cf], [B] stands next to the first [A]. *)
Theorem c50_join_refuted : exists d, ShowsOther d (lit "A[cf]B[jl2]A") (lit "AB[jl2]A").
Proof. exists lx_d. apply (shows_other _ _ 5 0 (0, 0, 0) (255, 208, 0)); try (vm_compute; reflexivity); [lia|lia|discriminate]. Qed.
Print Assumptions c50_join_refuted.

(** Blank lines at the end move text that is not at the top. *)
Theorem c50_lines_refuted : exists d, ShowsOther d (lit "[jp4]A[nl][nl]") (lit "[jp4]A").
Proof. exists lx_d. apply (shows_other _ _ 1 5 (255, 208, 0) (0, 0, 0)); try (vm_compute; reflexivity); [lia|lia|discriminate]. Qed.
Print Assumptions c50_lines_refuted.

(** Blank text at the end moves text that is not at the left. *)
Theorem c50_space_refuted : exists d, ShowsOther d (lit "[jl4]A[cf1] ") (lit "[jl4]A").
Proof. exists lx_d. apply (shows_other _ _ 18 0 (0, 0, 0) (255, 208, 0)); try (vm_compute; reflexivity); [lia|lia|discriminate]. Qed.
Print Assumptions c50_space_refuted.

(** A background colour at the end is that of the whole page. *)
Theorem c50_background_refuted : exists d, ShowsOther d (lit "A[cb1]") (lit "A").
Proof. exists lx_d. apply (shows_other _ _ 0 0 (255, 0, 0) (0, 0, 0)); try (vm_compute; reflexivity); [lia|lia|discriminate]. Qed.
Print Assumptions c50_background_refuted.

(** A hexadecimal character is printed in decimal, and is then another one. *)
Theorem c50_hex_refuted : exists d p c, Built d /\ Yields Debug d (lit "[hc41]") [Ok p]
  /\ normalize Debug (lit "[hc41]") = Val (lit "[hc65]")
  /\ Yields Debug d (lit "[hc65]") [Err (SCharacterNotDefined c)].
Proof.
  destruct (pixel_of_val (pages_take Debug lx_d 2 (pages_new lx_d (lit "[hc41]"))) 0 0 (0, 0, 0)) as (p & H & _);
    [vm_compute; reflexivity|].
  exists lx_d, p, 101. splits; [apply px_sign|exists 2%nat; split; [exact H|cbn; lia]|vm_compute; reflexivity|].
  exists 2%nat. split; [vm_compute; reflexivity|cbn; lia].
Qed.
Print Assumptions c50_hex_refuted.
