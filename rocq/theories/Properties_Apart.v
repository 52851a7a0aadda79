(** Property C86: text added in another place of a text rectangle. *)

From Coq Require Import String Lia.
From Verif Require Import Base Str Multi Color Raster Font Graphic Config Sign Render
  Spec_Multi Spec_Color Spec_Font Spec_Sign Spec_Render Spec_Layout Spec_Page Spec_Fail Spec_Below Spec_Beside Spec_Apart
  Proofs_Str Proofs_Norm Proofs_Apart Examples_Sign Properties_Render Properties_Layout Properties_Page.
Open Scope list_scope.

(** When text is added to a message of one page with a page justification that comes
    after those before, the page is shown as long as before, and has the same size
    and pixels, but for pixels that have the colour of a text added. *)
Theorem c86_block : forall md d ms ms' fr vs ws p l p' l', Built d -> (md = Release -> ~ Wraps d ms /\ ~ Wraps d ms') ->
  Meaning ms (map Ok (fr ++ vs)) -> Meaning ms' (map Ok (fr ++ vs ++ ws)) -> BlockAdded d fr vs ws ->
  Yields md d ms (map Ok (p :: l)) -> Yields md d ms' (map Ok (p' :: l')) ->
  pg_duration p' = pg_duration p
  /\ r_width (pg_raster p') = r_width (pg_raster p) /\ r_height (pg_raster p') = r_height (pg_raster p)
  /\ forall x y, on_raster (pg_raster p) x y ->
     r_pixel (pg_raster p') x y = r_pixel (pg_raster p) x y
     \/ exists t, In t (texts d (last_place d fr (fr ++ vs)) vs ws)
          /\ r_pixel (pg_raster p') x y = foreground_rgb (rs_ctx (span_state t)).
Proof. intros. eapply apart; eauto. Qed.
Print Assumptions c86_block.

(** So too when text in the same font is put on the line at the end of a message with
    a line justification that comes after those before. *)
Theorem c86_run : forall md d ms ms' fr vs ws p l p' l', Built d -> (md = Release -> ~ Wraps d ms /\ ~ Wraps d ms') ->
  Meaning ms (map Ok (fr ++ vs)) -> Meaning ms' (map Ok (fr ++ vs ++ ws)) -> RunAdded d fr vs ws ->
  Yields md d ms (map Ok (p :: l)) -> Yields md d ms' (map Ok (p' :: l')) ->
  pg_duration p' = pg_duration p
  /\ r_width (pg_raster p') = r_width (pg_raster p) /\ r_height (pg_raster p') = r_height (pg_raster p)
  /\ forall x y, on_raster (pg_raster p) x y ->
     r_pixel (pg_raster p') x y = r_pixel (pg_raster p) x y
     \/ exists t, In t (texts d (last_place d fr (fr ++ vs)) vs ws)
          /\ r_pixel (pg_raster p') x y = foreground_rgb (rs_ctx (span_state t)).
Proof. intros. eapply apart; eauto. Qed.
Print Assumptions c86_run.

(** An [A] at the top left; a red [B] at the bottom, or at the right. *)
Definition px_block : list Value := [VJustificationPage (Some JpBottom); VColorForeground (Some (Legacy 1)); VText (lit "B")].
Definition px_run : list Value := [VJustificationLine (Some JlRight); VColorForeground (Some (Legacy 1)); VText (lit "B")].

Example c86_example : Built lx_d /\ Meaning (lit "A") (map Ok ([] ++ [VText (lit "A")]))
  /\ Meaning (lit "A[jp4][cf1]B") (map Ok ([] ++ [VText (lit "A")] ++ px_block)) /\ BlockAdded lx_d [] [VText (lit "A")] px_block
  /\ Meaning (lit "A[jl4][cf1]B") (map Ok ([] ++ [VText (lit "A")] ++ px_run)) /\ RunAdded lx_d [] [VText (lit "A")] px_run
  /\ exists p p' q, Yields Debug lx_d (lit "A") (map Ok [p]) /\ Yields Debug lx_d (lit "A[jp4][cf1]B") (map Ok [p'])
     /\ Yields Debug lx_d (lit "A[jl4][cf1]B") (map Ok [q])
     /\ r_pixel (pg_raster p) 0 9 = (0, 0, 0) /\ r_pixel (pg_raster p') 0 9 = (255, 0, 0) /\ r_pixel (pg_raster q) 18 0 = (255, 0, 0).
Proof.
  split; [exact (proj1 px_sign)|].
  split; [apply (values_meaning Debug); vm_compute; reflexivity|].
  split; [apply (values_meaning Debug); vm_compute; reflexivity|]. split.
  { unfold BlockAdded. splits.
    - constructor.
    - intros [].
    - intros [H|[]]; discriminate H.
    - intros r [H|[]]; discriminate H.
    - exists (Some JpBottom), [VColorForeground (Some (Legacy 1)); VText (lit "B")].
      split; [reflexivity|]. split; [repeat constructor|reflexivity].
    - intros a v b E. unfold px_block in E. cbn [app] in E.
      repeat (destruct a as [|? a]; cbn in E; [injection E as <- <-; cbn; first [exact I|right; right; reflexivity]|injection E as <- E]).
      destruct a; discriminate E. }
  split; [apply (values_meaning Debug); vm_compute; reflexivity|]. split.
  { unfold RunAdded. splits.
    - constructor.
    - intros [].
    - intros [H|[]]; discriminate H.
    - intros r [H|[]]; discriminate H.
    - exists [], (VText (lit "A")). split; [reflexivity|exact I].
    - exists (Some JlRight), [VColorForeground (Some (Legacy 1)); VText (lit "B")].
      split; [reflexivity|]. split; [repeat constructor|reflexivity].
    - intros a v b E. unfold px_run in E. cbn [app] in E.
      repeat (destruct a as [|? a]; cbn in E; [injection E as <- <-; cbn; first [exact I|right; reflexivity]|injection E as <- E]).
      destruct a; discriminate E. }
  destruct (pixel_of_val (pages_take Debug lx_d 9 (pages_new lx_d (lit "A"))) 0 9 (0, 0, 0)) as (p & H & E); [vm_compute; reflexivity|].
  destruct (pixel_of_val (pages_take Debug lx_d 9 (pages_new lx_d (lit "A[jp4][cf1]B"))) 0 9 (255, 0, 0)) as (p' & H' & E'); [vm_compute; reflexivity|].
  destruct (pixel_of_val (pages_take Debug lx_d 9 (pages_new lx_d (lit "A[jl4][cf1]B"))) 18 0 (255, 0, 0)) as (q & K & E''); [vm_compute; reflexivity|].
  exists p, p', q. split; [exists 9%nat; split; [exact H|cbn; lia]|]. split; [exists 9%nat; split; [exact H'|cbn; lia]|].
  split; [exists 9%nat; split; [exact K|cbn; lia]|]. auto.
Qed.
