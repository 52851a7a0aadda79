(** Property C74: a message on a larger sign. *)

From Coq Require Import String.
From Verif Require Import Base Str Multi Color Raster Font Graphic Config Sign Render
  Spec_Multi Spec_Color Spec_Font Spec_Sign Spec_Render Spec_Move Spec_Embed
  Proofs_Str Proofs_Norm Proofs_Sign Proofs_Move Proofs_Embed Examples_Sign Properties_Render Properties_Layout Properties_Move.
Open Scope list_scope.

(** A message that renders on a sign also renders on a larger sign, with its
    rectangles and graphics moved to where the first sign is set in the larger one,
    and shows the same pages there on a plain background. *)
Theorem c74_set_into : forall dx dy d d' md n ms ms' vs vs' ps, SetInto dx dy d d' -> table_fields (d_fonts d) ->
  Meaning ms (map Ok vs) -> Meaning ms' (map Ok vs') -> Forall2 (MovedValue dx dy) vs vs' -> Framed vs ->
  pages_take Debug d n (pages_new d ms) = Val (map Ok ps) ->
  exists ps', pages_take md d' n (pages_new d' ms') = Val (map Ok ps') /\ Forall2 (SetPage dx dy d d') ps ps'.
Proof.
  intros dx dy d d' md n ms ms' vs vs' ps HS HT HM HM' HV HF H.
  destruct (grown dx dy d d' n ms ms' vs vs' ps HS HT HM HM' HV HF H) as (ps' & H' & HP). exists ps'. split; [|exact HP].
  destruct md; [exact H'|now apply debug_release].
Qed.
Print Assumptions c74_set_into.

(** In particular the same message on a larger sign shows the same at the top left. *)
Theorem c74_larger : forall d d' md n ms vs ps, SetInto 0 0 d d' -> table_fields (d_fonts d) ->
  Meaning ms (map Ok vs) -> Bounded vs -> Framed vs -> pages_take Debug d n (pages_new d ms) = Val (map Ok ps) ->
  exists ps', pages_take md d' n (pages_new d' ms) = Val (map Ok ps') /\ Forall2 (SetPage 0 0 d d') ps ps'.
Proof.
  intros d d' md n ms vs ps HS HT HM HB HF H. exact (c74_set_into 0 0 d d' md n ms ms vs vs ps HS HT HM HM (bounded_moved vs HB) HF H).
Qed.
Print Assumptions c74_larger.

(** A sign of 20 by 12 pixels in one of 40 by 16. *)
Definition gx_builder : DmsBuilder := mkBuilder sx_sign_cfg (mkVmsCfg 0 0 16 40 70 70 (255, 112, 224) (0, 0, 0)) [sx_font; font_default 2]
  (sx_multi Color24Bit) [sx_graphic; graphic_default; graphic_default].
Definition gx_d : Dms := mkDms sx_sign_cfg (mkVmsCfg 0 0 16 40 70 70 (255, 112, 224) (0, 0, 0)) [sx_font; font_default 2]
  (sx_multi Color24Bit) [sx_graphic; graphic_default; graphic_default].
Definition ex_set : str := lit "[cr22,11,3,2,7][tr23,5,10,9][jl3]A[nl]B[np][pt7][tr25,7,9,5]AB[g1,29,9]".

Example c74_example : build Debug gx_builder = Val (Ok gx_d) /\ SetInto 20 2 lx_d gx_d /\ SetInto 0 0 lx_d gx_d /\ table_fields (d_fonts lx_d)
  /\ Meaning ex_set (map Ok (ex_values 20 2)) /\ Forall2 (MovedValue 20 2) (ex_values 0 0) (ex_values 20 2) /\ Bounded (ex_values 0 0).
Proof.
  split; [vm_compute; reflexivity|].
  split; [unfold SetInto; cbn; splits; auto; lia|]. split; [unfold SetInto; cbn; splits; auto; lia|]. split; [exact sx_fonts_fields|].
  split; [apply (values_meaning Debug); vm_compute; reflexivity|].
  split; [unfold ex_values; repeat (apply Forall2_cons; [first [apply Mv_same; intros []|apply Mv_text; cbn; lia|apply Mv_color; cbn; lia|apply Mv_graphic]|]); apply Forall2_nil|].
  intros r [H|[c H]]; unfold ex_values in H; cbn [In] in H;
    repeat (destruct H as [H|H]; [try discriminate H; injection H as <-; cbn; lia|]); contradiction.
Qed.

(** Text outside text rectangles fits the sign: it can stand elsewhere on a larger
    sign. *)
Theorem c74_unframed : exists d d' ms vs p p', SetInto 0 0 d d' /\ table_fields (d_fonts d) /\ Meaning ms (map Ok vs) /\ Bounded vs
  /\ pages_take Debug d 9 (pages_new d ms) = Val [Ok p] /\ pages_take Debug d' 9 (pages_new d' ms) = Val [Ok p'] /\ ~ SetPage 0 0 d d' p p'.
Proof.
  set (ms := lit "[jl4]A").
  destruct (pixel_of_val (pages_take Debug lx_d 9 (pages_new lx_d ms)) 18 0 (255, 208, 0)) as (p & H & E); [vm_compute; reflexivity|].
  destruct (pixel_of_val (pages_take Debug gx_d 9 (pages_new gx_d ms)) 18 0 (0, 0, 0)) as (p' & H' & E'); [vm_compute; reflexivity|].
  destruct c74_example as (_ & _ & HS & HT & _).
  exists lx_d, gx_d, ms, [VJustificationLine (Some JlRight); VText (lit "A")], p, p'. splits; auto.
  - apply (values_meaning Debug). vm_compute. reflexivity.
  - intros r [X|[c X]]; cbn in X; intuition discriminate.
  - intros (_ & _ & bg & P).
    assert (S : forall d w h m q, pages_take Debug d 9 (pages_new d m) = Val [Ok q] -> shapes (pages_take Debug d 9 (pages_new d m)) = Val [ShPage w h 30] ->
      r_width (pg_raster q) = w /\ r_height (pg_raster q) = h).
    { intros d w h m q E0 E1. rewrite E0 in E1. injection E1 as E1 E2 _. auto. }
    destruct (S lx_d 20 12 ms p H) as [W1 H1]; [vm_compute; reflexivity|]. destruct (S gx_d 40 16 ms p' H') as [W2 H2]; [vm_compute; reflexivity|].
    specialize (P 18 0). unfold shown, in_raster in P. rewrite W1, H1, W2, H2 in P. cbn in P. rewrite E, E' in P. discriminate P.
Qed.
Print Assumptions c74_unframed.
