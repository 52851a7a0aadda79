(** Property C85: text put behind other text on a line. *)

From Coq Require Import String Lia.
From Verif Require Import Base Str Multi Color Raster Font Graphic Config Sign Render
  Spec_Multi Spec_Color Spec_Font Spec_Sign Spec_Render Spec_Layout Spec_Page Spec_Fail Spec_Below Spec_Beside
  Proofs_Str Proofs_Norm Proofs_Beside Examples_Sign Properties_Render Properties_Layout Properties_Page.
Open Scope list_scope.

(** When text in the same font is put behind the text at the end of a message of one
    page, on a line at the left, the page is shown as long as before, and has the
    same size and pixels, but for pixels right of the text there was in that place
    of the line, which may have the colour of a text added. *)
Theorem c85_beside : forall md d ms ms' fr vs ws p l p' l', Built d -> (md = Release -> ~ Wraps d ms /\ ~ Wraps d ms') ->
  Meaning ms (map Ok (fr ++ vs)) -> Meaning ms' (map Ok (fr ++ vs ++ ws)) -> TextAdded d fr vs ws ->
  Yields md d ms (map Ok (p :: l)) -> Yields md d ms' (map Ok (p' :: l')) ->
  pg_duration p' = pg_duration p
  /\ r_width (pg_raster p') = r_width (pg_raster p) /\ r_height (pg_raster p') = r_height (pg_raster p)
  /\ forall x y, on_raster (pg_raster p) x y ->
     r_pixel (pg_raster p') x y = r_pixel (pg_raster p) x y
     \/ exists t, In t (texts d (last_place d fr (fr ++ vs)) vs ws)
          /\ r_pixel (pg_raster p') x y = foreground_rgb (rs_ctx (span_state t))
          /\ RightOfRun d (texts d (last_place d fr (fr ++ vs)) [] vs) t x.
Proof. exact beside. Qed.
Print Assumptions c85_beside.

(** A red [B] behind an [A] in the middle, below another [A] at the top. *)
Definition sx_text : list Value := [VText (lit "A"); VJustificationPage (Some JpMiddle); VText (lit "A")].
Definition sx_added : list Value := [VColorForeground (Some (Legacy 1)); VText (lit "B")].

Example c85_example : Built lx_d /\ Meaning (lit "A[jp3]A") (map Ok ([] ++ sx_text))
  /\ Meaning (lit "A[jp3]A[cf1]B") (map Ok ([] ++ sx_text ++ sx_added)) /\ TextAdded lx_d [] sx_text sx_added
  /\ exists p p', Yields Debug lx_d (lit "A[jp3]A") (map Ok [p]) /\ Yields Debug lx_d (lit "A[jp3]A[cf1]B") (map Ok [p'])
     /\ r_pixel (pg_raster p) 4 6 = (0, 0, 0) /\ r_pixel (pg_raster p') 4 6 = (255, 0, 0).
Proof.
  split; [exact (proj1 px_sign)|].
  split; [apply (values_meaning Debug); vm_compute; reflexivity|].
  split; [apply (values_meaning Debug); vm_compute; reflexivity|]. split.
  - unfold TextAdded. splits.
    + constructor.
    + intros [].
    + intros [H|[H|[H|[]]]]; discriminate H.
    + intros r [H|[H|[H|[]]]]; discriminate H.
    + reflexivity.
    + exists [VText (lit "A"); VJustificationPage (Some JpMiddle)], (VText (lit "A")). split; [reflexivity|exact I].
    + repeat constructor.
    + intros a v b E. unfold sx_text, sx_added in E. cbn [app] in E.
      repeat (destruct a as [|? a]; cbn in E; [injection E as <- <-; cbn; first [exact I|right; right; reflexivity]|injection E as <- E]).
      destruct a; discriminate E.
  - destruct (pixel_of_val (pages_take Debug lx_d 9 (pages_new lx_d (lit "A[jp3]A"))) 4 6 (0, 0, 0)) as (p & H & E); [vm_compute; reflexivity|].
    destruct (pixel_of_val (pages_take Debug lx_d 9 (pages_new lx_d (lit "A[jp3]A[cf1]B"))) 4 6 (255, 0, 0)) as (p' & H' & E'); [vm_compute; reflexivity|].
    exists p, p'. split; [exists 9%nat; split; [exact H|cbn; lia]|]. split; [exists 9%nat; split; [exact H'|cbn; lia]|].
    split; [exact E|exact E'].
Qed.

(** Text in the centre moves left when text is put behind it. *)
Theorem c85_centre : exists d ms ms' v t w u p p',
  Meaning ms (map Ok [v; VText t]) /\ Meaning ms' (map Ok [v; VText t; w; VText u])
  /\ Yields Debug d ms (map Ok [p]) /\ Yields Debug d ms' (map Ok [p'])
  /\ r_pixel (pg_raster p) 10 1 = (255, 208, 0) /\ r_pixel (pg_raster p') 10 1 = (0, 0, 0).
Proof.
  destruct (pixel_of_val (pages_take Debug lx_d 9 (pages_new lx_d (lit "[jl3]A"))) 10 1 (255, 208, 0)) as (p & H & E); [vm_compute; reflexivity|].
  destruct (pixel_of_val (pages_take Debug lx_d 9 (pages_new lx_d (lit "[jl3]A[cf1]B"))) 10 1 (0, 0, 0)) as (p' & H' & E'); [vm_compute; reflexivity|].
  exists lx_d, (lit "[jl3]A"), (lit "[jl3]A[cf1]B"), (VJustificationLine (Some JlCenter)), (lit "A"), (VColorForeground (Some (Legacy 1))), (lit "B"), p, p'.
  split; [apply (values_meaning Debug); vm_compute; reflexivity|].
  split; [apply (values_meaning Debug); vm_compute; reflexivity|].
  split; [exists 9%nat; split; [exact H|cbn; lia]|]. split; [exists 9%nat; split; [exact H'|cbn; lia]|].
  split; [exact E|exact E'].
Qed.
Print Assumptions c85_centre.
