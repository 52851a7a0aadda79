(** Property C73: moving what a message places moves the picture. *)

From Coq Require Import String.
From Verif Require Import Base Str Multi Color Raster Font Graphic Config Sign Render
  Spec_Multi Spec_Color Spec_Sign Spec_Render Spec_Move
  Proofs_Str Proofs_Norm Proofs_Sign Proofs_Move Examples_Sign Properties_Render Properties_Layout.
Open Scope list_scope.

(** When the text rectangles, colour rectangles and graphics of a message are all
    moved by the same distance, and both messages render, then each page of the
    second is the page of the first with its picture moved: the same size and time,
    and the same pixels on a plane of one background colour. *)
Theorem c73_moved : forall dx dy md d n ms ms' vs vs' ps ps', Meaning ms (map Ok vs) -> Meaning ms' (map Ok vs') ->
  Forall2 (MovedValue dx dy) vs vs' -> Framed vs ->
  pages_take Debug d n (pages_new d ms) = Val (map Ok ps) -> pages_take Debug d n (pages_new d ms') = Val (map Ok ps') ->
  pages_take md d n (pages_new d ms) = Val (map Ok ps) /\ pages_take md d n (pages_new d ms') = Val (map Ok ps')
  /\ Forall2 (MovedPage dx dy) ps ps'.
Proof.
  intros dx dy md d n ms ms' vs vs' ps ps' HM HM' HV HF H H'. splits.
  - destruct md; [exact H|now apply debug_release].
  - destruct md; [exact H'|now apply debug_release].
  - exact (moved dx dy d n ms ms' vs vs' ps ps' HM HM' HV HF H H').
Qed.
Print Assumptions c73_moved.

(** Two pages with text, a rectangle and a graphic, moved by 2 and -1. *)
Definition ex_at : str := lit "[cr2,9,3,2,7][tr3,3,10,9][jl3]A[nl]B[np][pt7][tr5,5,9,5]AB[g1,9,7]".
Definition ex_moved : str := lit "[cr4,8,3,2,7][tr5,2,10,9][jl3]A[nl]B[np][pt7][tr7,4,9,5]AB[g1,11,6]".
Definition ex_values (dx dy : Z) : list Value :=
  [VColorRectangle (mkRect (2 + dx) (9 + dy) 3 2) (Legacy 7); VTextRectangle (mkRect (3 + dx) (3 + dy) 10 9);
   VJustificationLine (Some JlCenter); VText (lit "A"); VNewLine None; VText (lit "B"); VNewPage; VPageTime (Some 7) None;
   VTextRectangle (mkRect (5 + dx) (5 + dy) 9 5); VText (lit "AB"); VGraphic 1 (Some (9 + dx, 7 + dy, None))].

Lemma ex_pages ms : shapes (pages_take Debug lx_d 9 (pages_new lx_d ms)) = Val [ShPage 20 12 30; ShPage 20 12 7] ->
  exists p q, pages_take Debug lx_d 9 (pages_new lx_d ms) = Val (map Ok [p; q]).
Proof.
  intros H. apply shapes_val in H as (r & H & E). destruct r as [|[p|] [|[q|] [|]]]; try discriminate E. exists p, q. exact H.
Qed.

Example c73_example : Meaning ex_at (map Ok (ex_values 0 0)) /\ Meaning ex_moved (map Ok (ex_values 2 (-1)))
  /\ Forall2 (MovedValue 2 (-1)) (ex_values 0 0) (ex_values 2 (-1)) /\ Framed (ex_values 0 0)
  /\ exists p q p' q', pages_take Debug lx_d 9 (pages_new lx_d ex_at) = Val (map Ok [p; q])
     /\ pages_take Debug lx_d 9 (pages_new lx_d ex_moved) = Val (map Ok [p'; q']).
Proof.
  split; [apply (values_meaning Debug); vm_compute; reflexivity|].
  split; [apply (values_meaning Debug); vm_compute; reflexivity|].
  split; [unfold ex_values; repeat (apply Forall2_cons; [first [apply Mv_same; intros []|apply Mv_text; cbn; lia|apply Mv_color; cbn; lia|apply Mv_graphic]|]); apply Forall2_nil|].
  split.
  - intros a v b E Hv. unfold ex_values in E.
    repeat (destruct a as [|? a]; cbn [app] in E; [injection E as <- E; try contradiction|injection E as <- E]);
      try (eexists [_], _, [_]; split; [reflexivity|cbn; intuition discriminate]);
      try (eexists [_], _, [_; _; _]; split; [reflexivity|cbn; intuition discriminate]);
      try (eexists [_; _; _; _; _; _; _; _], _, []; split; [reflexivity|cbn; tauto]).
    destruct a; discriminate E.
  - destruct (ex_pages ex_at) as (p & q & H); [vm_compute; reflexivity|].
    destruct (ex_pages ex_moved) as (p' & q' & H'); [vm_compute; reflexivity|]. exists p, q, p', q'. auto.
Qed.

(** Text outside text rectangles stays where it is: the condition is needed. *)
Theorem c73_unframed : exists d ms ms' vs vs' p p', Meaning ms (map Ok vs) /\ Meaning ms' (map Ok vs')
  /\ Forall2 (MovedValue 4 4) vs vs' /\ pages_take Debug d 9 (pages_new d ms) = Val [Ok p] /\ pages_take Debug d 9 (pages_new d ms') = Val [Ok p']
  /\ ~ MovedPage 4 4 p p'.
Proof.
  set (ms := lit "A[cr5,5,2,2,7]"). set (ms' := lit "A[cr9,9,2,2,7]").
  destruct (pixel_of_val (pages_take Debug lx_d 9 (pages_new lx_d ms)) 1 0 (255, 208, 0)) as (p & H & E); [vm_compute; reflexivity|].
  destruct (pixel_of_val (pages_take Debug lx_d 9 (pages_new lx_d ms')) 5 4 (0, 0, 0)) as (p' & H' & E'); [vm_compute; reflexivity|].
  exists lx_d, ms, ms', [VText (lit "A"); VColorRectangle (mkRect 5 5 2 2) (Legacy 7)],
    [VText (lit "A"); VColorRectangle (mkRect 9 9 2 2) (Legacy 7)], p, p'. splits.
  - apply (values_meaning Debug). vm_compute. reflexivity.
  - apply (values_meaning Debug). vm_compute. reflexivity.
  - repeat constructor; try (intros []); lia.
  - exact H.
  - exact H'.
  - intros (_ & W & Hh & bg & P).
    assert (S : forall ms q, pages_take Debug lx_d 9 (pages_new lx_d ms) = Val [Ok q] -> shapes (pages_take Debug lx_d 9 (pages_new lx_d ms)) = Val [ShPage 20 12 30] ->
      r_width (pg_raster q) = 20 /\ r_height (pg_raster q) = 12).
    { intros m q E0 E1. rewrite E0 in E1. injection E1 as E1 E2 _. auto. }
    destruct (S ms p H) as [W1 H1]; [vm_compute; reflexivity|]. destruct (S ms' p' H') as [W2 H2]; [vm_compute; reflexivity|].
    specialize (P 1 0). unfold shown, in_raster in P. rewrite W1, H1, W2, H2 in P. cbn [Z.leb Z.ltb Z.add Z.compare andb Pos.compare Pos.compare_cont] in P.
    cbn in P. rewrite E, E' in P. discriminate P.
Qed.
Print Assumptions c73_unframed.
