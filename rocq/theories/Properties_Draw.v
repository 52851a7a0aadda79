(** Property C56: a message determines its pages. *)

From Coq Require Import String.
From Verif Require Import Base Str Multi Color Raster Font Graphic Config Sign Render
  Spec_Multi Spec_Color Spec_Font Spec_Tfon Spec_Graphic Spec_Sign Spec_Render Spec_Layout Spec_Draw Spec_Page Spec_Safe Spec_Fail
  Proofs_Str Proofs_Norm Proofs_Sign Proofs_Render Proofs_Place Proofs_Draw Proofs_Page Proofs_Safe Proofs_Fail Proofs_Verdict Proofs_Unique
  Examples_Sign Properties_Render Properties_Layout Properties_Page Properties_Safe Properties_Fail.
Open Scope list_scope.

(** ** The description of pages leaves nothing open *)

(** Pages that fit the description [c52_pictures] gives of the pages of a message
    are the same in number, durations, sizes and every pixel. *)
Theorem c56_unique : forall d ms ps ps', PagesShow d (PageShown d (TextsShown d)) ms ps ->
  PagesShow d (PageShown d (TextsShown d)) ms ps' -> Forall2 SamePage ps ps'.
Proof. exact unique_pages. Qed.
Print Assumptions c56_unique.

(** So are the pages of a message with nothing wrong, and those before the first
    fault of another. *)
Theorem c56_unique_accepted : forall d ms ps ps', MessageAccepted d ms ps -> MessageAccepted d ms ps' ->
  Forall2 SamePage ps ps'.
Proof. exact unique_accepted. Qed.
Print Assumptions c56_unique_accepted.

Theorem c56_unique_fails : forall d ms ps ps' f f', MessageStops d ms ps f -> MessageStops d ms ps' f' ->
  Forall2 SamePage ps ps' /\ f = f'.
Proof. exact unique_stops. Qed.
Print Assumptions c56_unique_fails.

(** ** The renderer draws what is described *)

(** Pages that describe the message are those it is rendered to, up to the first
    fault, in both builds; the other direction is [c55_accepted_partial] and
    [c55_cause_partial], and for release builds [c55_cause_modes_partial]. *)
Theorem c56_modes_partial : forall d ms, Built d ->
  (forall ps, MessageAccepted d ms ps -> forall md, exists qs, Yields md d ms (map Ok qs) /\ Forall2 SamePage qs ps)
  /\ (forall ps e, MessageFails d ms ps e -> forall md, exists n qs l,
        pages_take md d n (pages_new d ms) = Val (map Ok qs ++ Err e :: l) /\ Forall2 SamePage qs ps)
  /\ (forall ps, MessagePanics d ms ps -> forall md, exists qs,
        pages_take md d (List.length qs) (pages_new d ms) = Val (map Ok qs) /\ Forall2 SamePage qs ps).
Proof. exact both_builds. Qed.
Print Assumptions c56_modes_partial.

(** Each build then ends as is described of it. *)
Theorem c56_builds_partial : forall d ms md, Built d ->
  (forall ps, MessageAccepted d ms ps -> exists qs, Yields md d ms (map Ok qs) /\ Forall2 SamePage qs ps)
  /\ (forall ps e, FailsIn md d ms ps e -> exists n qs l,
        pages_take md d n (pages_new d ms) = Val (map Ok qs ++ Err e :: l) /\ Forall2 SamePage qs ps)
  /\ (forall ps, PanicsIn md d ms ps -> exists qs,
        pages_take md d (List.length qs) (pages_new d ms) = Val (map Ok qs)
        /\ pages_take md d (S (List.length qs)) (pages_new d ms) = Panic /\ Forall2 SamePage qs ps).
Proof. exact described_modes. Qed.
Print Assumptions c56_builds_partial.

(** Debug builds then panic if that is what is described. *)
Theorem c56_exact_debug_partial : forall d ms, Built d ->
  (forall ps, MessageAccepted d ms ps -> exists qs, Yields Debug d ms (map Ok qs) /\ Forall2 SamePage qs ps)
  /\ (forall ps e, MessageFails d ms ps e -> exists n qs l,
        pages_take Debug d n (pages_new d ms) = Val (map Ok qs ++ Err e :: l) /\ Forall2 SamePage qs ps)
  /\ (forall ps, MessagePanics d ms ps -> exists qs,
        pages_take Debug d (List.length qs) (pages_new d ms) = Val (map Ok qs)
        /\ pages_take Debug d (S (List.length qs)) (pages_new d ms) = Panic /\ Forall2 SamePage qs ps).
Proof. exact described_debug. Qed.
Print Assumptions c56_exact_debug_partial.

(** Rendered pages are the described ones. *)
Theorem c56_debug_partial : forall d ms ps ps', Built d -> Yields Debug d ms (map Ok ps) ->
  PagesShow d (PageShown d (TextsShown d)) ms ps' -> Forall2 SamePage ps ps'.
Proof. intros d ms ps ps' HB HY. apply c56_unique. now apply c52_pictures. Qed.
Print Assumptions c56_debug_partial.

(** ** Debug builds, exactly (C66) *)

(** Every message on every built sign is rendered by debug builds to described
    pages: all of them, or those before the error, or the panic, that is described. *)
Theorem c66_rendered : forall d ms, Built d -> exists ps,
  (MessageAccepted d ms ps /\ Yields Debug d ms (map Ok ps))
  \/ (exists e n l, MessageFails d ms ps e /\ pages_take Debug d n (pages_new d ms) = Val (map Ok ps ++ Err e :: l))
  \/ (MessagePanics d ms ps /\ pages_take Debug d (List.length ps) (pages_new d ms) = Val (map Ok ps)
      /\ pages_take Debug d (S (List.length ps)) (pages_new d ms) = Panic).
Proof.
  intros d ms HB. destruct (total_debug d ms) as [(ps & H)|[(n & ps & e & l & H)|(ps & H & H')]]; exists ps.
  - left. split; auto. now apply accepted_message.
  - right. left. exists e, n, l. split; auto. eapply fail_message; eauto.
  - right. right. split; auto. exact (panic_message d ms ps HB H H').
Qed.
Print Assumptions c66_rendered.

(** What is described of a message is one of the three, with one list of pages
    (the same sizes, durations and pixels) and one error. *)
Theorem c66_described : forall d ms,
  (forall ps, MessageAccepted d ms ps ->
     (forall ps', MessageAccepted d ms ps' -> Forall2 SamePage ps ps')
     /\ (forall ps' e, ~ MessageFails d ms ps' e) /\ forall ps', ~ MessagePanics d ms ps')
  /\ (forall ps e, MessageFails d ms ps e ->
     (forall ps', ~ MessageAccepted d ms ps')
     /\ (forall ps' e', MessageFails d ms ps' e' -> Forall2 SamePage ps ps' /\ e = e')
     /\ forall ps', ~ MessagePanics d ms ps')
  /\ forall ps, MessagePanics d ms ps ->
     (forall ps', ~ MessageAccepted d ms ps') /\ (forall ps' e, ~ MessageFails d ms ps' e)
     /\ forall ps', MessagePanics d ms ps' -> Forall2 SamePage ps ps'.
Proof.
  intros d ms. splits.
  - intros ps H. splits.
    + intros ps' HA'. now apply (c56_unique_accepted d ms).
    + intros ps' e HX. exact (proj1 (c55_exclusive _ _ _ _ HX) _ H).
    + intros ps' (f & _ & HX). exact (proj1 (c55_exclusive _ _ _ _ HX) _ H).
  - intros ps e H. splits.
    + exact (proj1 (c55_exclusive _ _ _ _ H)).
    + intros ps' e' HX. destruct (c56_unique_fails _ _ _ _ _ _ H HX) as [HS E]. split; auto. now injection E.
    + intros ps' (f & P & HX). exact (P _ (proj2 (c56_unique_fails _ _ _ _ _ _ HX H))).
  - intros ps (f & P & H). splits.
    + exact (proj1 (c55_exclusive _ _ _ _ H)).
    + intros ps' e HX. exact (P _ (proj2 (c56_unique_fails _ _ _ _ _ _ H HX))).
    + intros ps' (g & _ & HX). exact (proj1 (c56_unique_fails _ _ _ _ _ _ H HX)).
Qed.
Print Assumptions c66_described.

(** All three happen: for [px_page], for text too wide, and for a rectangle
    past 16 bits. *)
Example c66_example : Built lx_d
  /\ (exists ps, MessageAccepted lx_d px_page ps) /\ (exists ps, MessageFails lx_d (lit "AAAAAAAAAAAAAAAAAAAA") ps STextTooBig)
  /\ exists ps, MessagePanics lx_d (lit "A[tr9,1,65535,5]B") ps.
Proof.
  destruct px_sign as (HB & _). split; auto. splits.
  - destruct c52_modes_example as (qs & _ & HU & HF & HP & HM & HR & HO & HY & L). exists qs.
    apply (c55_cause_modes_partial _ _ Release HB
             (fun _ => no_panic_wraps _ _ (c55_no_crash_partial _ _ _ HB HU HF HP HM HR HO))). exact HY.
  - exists []. apply (c55_cause_partial lx_d 1 _ [] _ [] HB). vm_compute. reflexivity.
  - destruct (proj1 (proj2 (proj2 (c55_exact_debug_partial lx_d (lit "A[tr9,1,65535,5]B") HB)) 0%nat)) as (ps & _ & H); eauto.
    exists []. splits; auto; vm_compute; reflexivity.
Qed.

(** The page of [c52_modes_example] and what comes before the fault of
    [c41_example] are such pages. *)
Example c56_example :
  (exists ps qs, MessageAccepted lx_d px_page ps /\ Yields Release lx_d px_page (map Ok qs)
     /\ Forall2 SamePage qs ps /\ List.length qs = 1%nat)
  /\ exists ps e, List.length ps = 1%nat /\ MessageFails lx_d fx_ms ps e.
Proof.
  split; [|apply c55_exact_example].
  destruct c52_modes_example as (qs & HB & HU & HF & HP & HM & HR & HO & HY & L).
  pose proof (proj1 (c55_cause_modes_partial _ _ Release HB
                       (fun _ => no_panic_wraps _ _ (c55_no_crash_partial _ _ _ HB HU HF HP HM HR HO))) _ HY) as HA.
  exists qs, qs. splits; auto. now apply (c56_unique_accepted _ _ _ _ HA).
Qed.

(** ** Places *)

(** When the texts of each run are numbered in order, and each line has text of the
    line above before it, text is where [PlacedX] and [PlacedY] say. *)
Theorem c56_regular_x : forall d all s x, Numbered all -> In s all -> (AtX d all s x <-> PlacedX d all s x).
Proof. exact at_placed_x. Qed.
Print Assumptions c56_regular_x.

Theorem c56_regular_y : forall d all s y, Stacked all -> In s all -> (AtY d all s y <-> PlacedY d all s y).
Proof. exact at_placed_y. Qed.
Print Assumptions c56_regular_y.

(** After [A[jl2]] the text [B] has the number of [A] again, and is drawn on it:
    the layout is not regular, and both start at column 1 (the space between them is
    counted for both). *)
Definition dx_spans : list Span :=
  texts lx_d (mkPlace [] [] [] (sign_rect lx_d)) [] [VText (lit "A"); VJustificationLine (Some JlLeft); VText (lit "B")].
Example c56_irregular : ~ Numbered dx_spans /\ List.length dx_spans = 2%nat
  /\ (forall s, In s dx_spans -> AtX lx_d dx_spans s 1 /\ AtY lx_d dx_spans s 0).
Proof.
  splits.
  - intros H. assert (X : s_number (nth 0 dx_spans lx_s) < s_number (nth 1 dx_spans lx_s)).
    { apply (H [] (nth 0 dx_spans lx_s) [] (nth 1 dx_spans lx_s) []); [reflexivity|]. unfold SameRun. splits; reflexivity. }
    vm_compute in X. discriminate X.
  - reflexivity.
  - destruct px_sign as (HB & _). destruct (Built_parts _ HB) as (HF & _).
    assert (HS : Forall span_fields dx_spans).
    { apply Forall_forall. intros s [<-|[<-|[]]]; unfold span_fields, u8, s_line, s_number; cbn; splits; try lia;
        try (intros n E; discriminate E); eexists; (split; [constructor|]); cbn; intros [E|[]]; discriminate E. }
    assert (HR : forall s, In s dx_spans -> rect_fits (s_rect s)).
    { intros s [<-|[<-|[]]]; unfold rect_fits, s_rect; cbn; lia. }
    intros s I. split.
    + apply at_x; auto; [cbn; lia|]. destruct I as [<-|[<-|[]]]; vm_compute; reflexivity.
    + apply at_y; auto; [cbn; lia|]. destruct I as [<-|[<-|[]]]; vm_compute; reflexivity.
Qed.
