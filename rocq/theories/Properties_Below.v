(** Property C83: lines of text added below others. *)

From Coq Require Import String Lia.
From Verif Require Import Base Str Multi Color Raster Font Graphic Config Sign Render
  Spec_Multi Spec_Color Spec_Font Spec_Sign Spec_Render Spec_Layout Spec_Page Spec_Fail Spec_Below
  Proofs_Str Proofs_Norm Proofs_Below Examples_Sign Properties_Render Properties_Layout Properties_Page.
Open Scope list_scope.

(** When lines are added to the text at the top of the last text rectangle of a
    message of one page, the page is shown as long as before, and has the same size
    and pixels, but for pixels below all the lines there were, which may have the
    colour of a text added. *)
Theorem c83_below : forall md d ms ms' fr vs ws p l p' l', Built d -> (md = Release -> ~ Wraps d ms /\ ~ Wraps d ms') ->
  Meaning ms (map Ok (fr ++ vs)) -> Meaning ms' (map Ok (fr ++ vs ++ ws)) -> LinesAdded d fr vs ws ->
  Yields md d ms (map Ok (p :: l)) -> Yields md d ms' (map Ok (p' :: l')) ->
  pg_duration p' = pg_duration p
  /\ r_width (pg_raster p') = r_width (pg_raster p) /\ r_height (pg_raster p') = r_height (pg_raster p)
  /\ forall x y, on_raster (pg_raster p) x y ->
     r_pixel (pg_raster p') x y = r_pixel (pg_raster p) x y
     \/ exists t, In t (texts d (last_place d fr (fr ++ vs)) vs ws)
          /\ r_pixel (pg_raster p') x y = foreground_rgb (rs_ctx (span_state t))
          /\ BelowAll d (texts d (last_place d fr (fr ++ vs)) [] vs) y.
Proof. exact below. Qed.
Print Assumptions c83_below.

(** So the rows of the earlier lines, and those above them, stay as they were. *)
Theorem c83_kept : forall md d ms ms' fr vs ws p l p' l', Built d -> (md = Release -> ~ Wraps d ms /\ ~ Wraps d ms') ->
  Meaning ms (map Ok (fr ++ vs)) -> Meaning ms' (map Ok (fr ++ vs ++ ws)) -> LinesAdded d fr vs ws ->
  Yields md d ms (map Ok (p :: l)) -> Yields md d ms' (map Ok (p' :: l')) ->
  forall spans s top h x y, spans = texts d (last_place d fr (fr ++ vs)) [] vs -> In s spans ->
  PlacedY d spans s top -> HeightOf (d_fonts d) s h -> on_raster (pg_raster p) x y -> y < top + h ->
  r_pixel (pg_raster p') x y = r_pixel (pg_raster p) x y.
Proof.
  intros md d ms ms' fr vs ws p l p' l' HB HW M M' HL Y Y' spans s top h x y -> I PY Hh O L.
  destruct (below md d ms ms' fr vs ws p l p' l' HB HW M M' HL Y Y') as (_ & _ & _ & P).
  destruct (P x y O) as [E|(t & _ & _ & B)]; [exact E|]. specialize (B s top h I PY Hh). lia.
Qed.
Print Assumptions c83_kept.

(** A red line below a line of another text rectangle. *)
Definition bx_front : list Value := [VText (lit "B"); VTextRectangle (mkRect 8 1 12 12)].
Definition bx_text : list Value := [VText (lit "A")].
Definition bx_added : list Value := [VNewLine None; VColorForeground (Some (Legacy 1)); VText (lit "B")].
Definition bx_ms : str := lit "B[tr8,1,12,12]A".
Definition bx_ms' : str := lit "B[tr8,1,12,12]A[nl][cf1]B".

Example c83_example : Built lx_d /\ Meaning bx_ms (map Ok (bx_front ++ bx_text)) /\ Meaning bx_ms' (map Ok (bx_front ++ bx_text ++ bx_added))
  /\ LinesAdded lx_d bx_front bx_text bx_added
  /\ exists p p', Yields Debug lx_d bx_ms (map Ok [p]) /\ Yields Debug lx_d bx_ms' (map Ok [p'])
     /\ r_pixel (pg_raster p) 8 5 = (0, 0, 0) /\ r_pixel (pg_raster p') 8 5 = (255, 0, 0).
Proof.
  split; [exact (proj1 px_sign)|].
  split; [apply (values_meaning Debug); vm_compute; reflexivity|].
  split; [apply (values_meaning Debug); vm_compute; reflexivity|]. split.
  - unfold LinesAdded. splits.
    + apply (Fr_rect [VText (lit "B")] (mkRect 8 1 12 12) []); [|constructor]. intros r [H|[]]. discriminate H.
    + intros [H|[H|[]]]; discriminate H.
    + intros [H|[]]; discriminate H.
    + intros r [H|[]]. discriminate H.
    + reflexivity.
    + exists None, [VColorForeground (Some (Legacy 1)); VText (lit "B")]. reflexivity.
    + repeat constructor.
    + intros a v b E. unfold bx_text, bx_added in E. cbn [app] in E.
      repeat (destruct a as [|? a]; cbn in E; [injection E as <- <-; cbn; first [exact I|right; reflexivity]|injection E as <- E]).
      destruct a; discriminate E.
  - destruct (pixel_of_val (pages_take Debug lx_d 9 (pages_new lx_d bx_ms)) 8 5 (0, 0, 0)) as (p & H & E); [vm_compute; reflexivity|].
    destruct (pixel_of_val (pages_take Debug lx_d 9 (pages_new lx_d bx_ms')) 8 5 (255, 0, 0)) as (p' & H' & E'); [vm_compute; reflexivity|].
    exists p, p'. split; [exists 9%nat; split; [exact H|cbn; lia]|]. split; [exists 9%nat; split; [exact H'|cbn; lia]|].
    split; [exact E|exact E'].
Qed.

(** Text at the bottom moves up when a line is added. *)
Theorem c83_bottom : exists d ms ms' v t u p p',
  Meaning ms (map Ok [v; VText t]) /\ Meaning ms' (map Ok [v; VText t; VNewLine None; VText u])
  /\ Yields Debug d ms (map Ok [p]) /\ Yields Debug d ms' (map Ok [p'])
  /\ r_pixel (pg_raster p) 2 11 = (255, 208, 0) /\ r_pixel (pg_raster p') 2 11 = (0, 0, 0).
Proof.
  destruct (pixel_of_val (pages_take Debug lx_d 9 (pages_new lx_d (lit "[jp4]A"))) 2 11 (255, 208, 0)) as (p & H & E); [vm_compute; reflexivity|].
  destruct (pixel_of_val (pages_take Debug lx_d 9 (pages_new lx_d (lit "[jp4]A[nl]B"))) 2 11 (0, 0, 0)) as (p' & H' & E'); [vm_compute; reflexivity|].
  exists lx_d, (lit "[jp4]A"), (lit "[jp4]A[nl]B"), (VJustificationPage (Some JpBottom)), (lit "A"), (lit "B"), p, p'.
  split; [apply (values_meaning Debug); vm_compute; reflexivity|].
  split; [apply (values_meaning Debug); vm_compute; reflexivity|].
  split; [exists 9%nat; split; [exact H|cbn; lia]|]. split; [exists 9%nat; split; [exact H'|cbn; lia]|].
  split; [exact E|exact E'].
Qed.
Print Assumptions c83_bottom.
