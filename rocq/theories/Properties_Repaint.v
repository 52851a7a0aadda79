(** Property C72: what colours and page times can change. *)

From Coq Require Import String.
From Verif Require Import Base Str Multi Color Raster Font Graphic Config Sign Render
  Spec_Multi Spec_Color Spec_Font Spec_Tfon Spec_Graphic Spec_Sign Spec_Render Spec_Layout Spec_Draw Spec_Page Spec_Gamut Spec_Repaint
  Proofs_Str Proofs_Split Proofs_Norm Proofs_Sign Proofs_Fail Proofs_Repaint Examples_Sign Properties_Render Properties_Gamut.
Open Scope list_scope.

(** Colours and page times have no effect on where things are: when the colours and
    times of one message and sign are replaced (colours related by [R], times by
    [T], off times of zero by zero), every pixel of every page is replaced the same
    way, the page times are, and a message that fails or panics does so at the same
    place.  (Errors are the same, but may quote the replaced tag.) *)
Theorem c72_repaint : forall R T md d d' n ms ms', Built d -> Built d' -> SameFace d d' ->
  RepaintedSign R T d d' -> RepaintedGraphics R d d' ms -> RepaintedMessage R T d d' ms ms' ->
  RepaintedItems R T (pages_take md d n (pages_new d ms)) (pages_take md d' n (pages_new d' ms')).
Proof. intros R T md d d' n ms ms' HB HB'. exact (repaint R T d d' HB HB' md n ms ms'). Qed.
Print Assumptions c72_repaint.

(** Page times do not change the pixels of any page, on one sign. *)
Theorem c72_times : forall md d n ms ms', Built d -> RepaintedMessage eq AnyTime d d ms ms' ->
  RepaintedItems eq AnyTime (pages_take md d n (pages_new d ms)) (pages_take md d n (pages_new d ms')).
Proof. exact retime. Qed.
Print Assumptions c72_times.

(** Colours that a sign can show do not change the number and sizes of pages, nor
    which page fails, whatever else the colours are. *)
Theorem c72_shape : forall md d d' n ms ms', Built d -> Built d' -> SameFace d d' ->
  (0 < default_page_off_time (d_multi_cfg d) <-> 0 < default_page_off_time (d_multi_cfg d')) ->
  RepaintedMessage AnyColor AnyTime d d' ms ms' ->
  RepaintedItems AnyColor AnyTime (pages_take md d n (pages_new d ms)) (pages_take md d' n (pages_new d' ms')).
Proof. exact reshape. Qed.
Print Assumptions c72_shape.

(** A message without colours of its own is shown as its negative by a sign with
    the two default colours exchanged. *)
Theorem c72_negative : forall md d d' n ms, Built d -> Built d' -> SameFace d d' ->
  foreground_default_rgb d' = background_default_rgb d -> background_default_rgb d' = foreground_default_rgb d ->
  default_page_on_time (d_multi_cfg d') = default_page_on_time (d_multi_cfg d) ->
  default_page_off_time (d_multi_cfg d') = default_page_off_time (d_multi_cfg d) -> Uncolored d ms ->
  RepaintedItems (Swapped d) eq (pages_take md d n (pages_new d ms)) (pages_take md d' n (pages_new d' ms)).
Proof. exact negative. Qed.
Print Assumptions c72_negative.

(** Yellow and green replaced by cyan and blue, a page time by another, and a
    colour the sign cannot show by another. *)
Definition ex_d : Dms := sx_sign ColorClassicScheme.
Definition ex_ms : str := lit "[cb2][cr8,1,2,2,3]A[np][pt5o2]B[np][cf]A[cf1,2,3]".
Definition ex_ms' : str := lit "[cb4][cr8,1,2,2,5]A[np][pt7o9]B[np][cf]A[cf40]".
Definition ex_R (x x' : rgb) : Prop :=
  In (x, x') [((255, 208, 0), (255, 208, 0)); ((0, 0, 0), (0, 0, 0)); ((255, 255, 0), (0, 255, 255)); ((0, 255, 0), (0, 0, 255))].
Definition ex_T (a b : Z) : Prop := In (a, b) [(30, 30); (0, 0); (5, 7); (2, 9)].
Definition ex_head (c k a b : Z) : list Value :=
  [VColorBackground (Some (Legacy c)); VColorRectangle (mkRect 8 1 2 2) (Legacy k); VText (lit "A"); VNewPage; VPageTime (Some a) (Some b);
   VText (lit "B"); VNewPage; VColorForeground None; VText (lit "A")].

Lemma ex_repainted : RepaintedMessage ex_R ex_T ex_d ex_d ex_ms ex_ms'.
Proof.
  apply (repainted_values ex_R ex_T ex_d ex_d ex_ms ex_ms' (ex_head 2 3 5 2 ++ [VColorForeground (Some (Rgb 1 2 3))])
           (ex_head 4 5 7 9 ++ [VColorForeground (Some (Legacy 40))])).
  - apply (values_meaning Debug). vm_compute. reflexivity.
  - apply (values_meaning Debug). vm_compute. reflexivity.
  - assert (SH : forall v x, 0 <= v -> nth_error palette (Z.to_nat v) = Some x -> Shows (sign_colors ex_d) (Legacy v) x)
      by (intros v x H E; apply Sw_classic; auto).
    cbn [ex_head app].
    apply Forall2_cons; [apply Rp_cb, (Rc_shown _ _ _ _ _ (255, 255, 0) (0, 255, 255)); [apply SH..|cbn; tauto]; (lia || reflexivity)|].
    apply Forall2_cons; [apply Rp_cr, (Rc_shown _ _ _ _ _ (0, 255, 0) (0, 0, 255)); [apply SH..|cbn; tauto]; (lia || reflexivity)|].
    do 2 (apply Forall2_cons; [apply Rp_same; intros []|]).
    apply Forall2_cons; [apply Rp_pt; [apply Rt_times; cbn; tauto|apply Rt_times; split; [cbn; tauto|lia]]|].
    do 2 (apply Forall2_cons; [apply Rp_same; intros []|]).
    apply Forall2_cons; [apply Rp_cf, Rc_default|]. apply Forall2_cons; [apply Rp_same; intros []|].
    apply Forall2_cons; [|apply Forall2_nil]. apply Rp_cf, Rc_refused; intros x H; inversion H; try discriminate.
Qed.

Lemma ex_graphics : RepaintedGraphics ex_R ex_d ex_d ex_ms.
Proof.
  intros n pos g px py x x' (ts & t & HT & HI & HD). exfalso. apply (split_iff Debug) in HT. vm_compute in HT. injection HT as <-.
  pose proof (denotes_vals [t] [Ok (VGraphic n pos)] (Forall2_cons _ _ HD (Forall2_nil _))) as E. injection E as E. clear HD.
  repeat (destruct HI as [<-|HI]; [vm_compute in E; discriminate E|]). contradiction.
Qed.

Example c72_example : Built ex_d /\ SameFace ex_d ex_d /\ RepaintedSign ex_R ex_T ex_d ex_d /\ RepaintedGraphics ex_R ex_d ex_d ex_ms
  /\ RepaintedMessage ex_R ex_T ex_d ex_d ex_ms ex_ms'
  /\ shapes (pages_take Debug ex_d 4 (pages_new ex_d ex_ms))
     = Val [ShPage 20 12 30; ShPage 20 12 5; ShPage 20 12 2; ShErr (SUnsupportedTagValue (lit "[cf1,2,3]"))].
Proof.
  split; [apply gx_built|]. split; [apply same_face_refl|]. split; [|split; [exact ex_graphics|split; [exact ex_repainted|vm_compute; reflexivity]]].
  unfold RepaintedSign, ex_R, ex_T, OffTimes. vm_compute. intuition.
Qed.

(** A sign with its colours exchanged. *)
Definition ex_neg : Dms :=
  mkDms sx_sign_cfg (mkVmsCfg 0 0 12 20 70 70 (0, 0, 0) (255, 112, 224)) [sx_font; font_default 2] (sx_multi Monochrome1Bit)
    [sx_graphic; graphic_default; graphic_default].

Definition ex_plain : str := lit "A[g1,4,5][np][pt7]B[cf]".

Lemma ex_neg_built : Built ex_neg.
Proof.
  exists Debug, (mkBuilder sx_sign_cfg (mkVmsCfg 0 0 12 20 70 70 (0, 0, 0) (255, 112, 224)) [sx_font; font_default 2] (sx_multi Monochrome1Bit)
    [sx_graphic; sx_big; graphic_default]). split; [|vm_compute; reflexivity].
  destruct (sx_builder_fields Monochrome1Bit) as (H1 & H2 & H3 & H4 & H5). unfold builder_fields. splits; auto.
  unfold vms_fields, rgb_ok, u8, u16. cbn. splits; lia.
Qed.

Example c72_negative_example : Built (sx_sign Monochrome1Bit) /\ Built ex_neg /\ SameFace (sx_sign Monochrome1Bit) ex_neg
  /\ foreground_default_rgb ex_neg = background_default_rgb (sx_sign Monochrome1Bit)
  /\ background_default_rgb ex_neg = foreground_default_rgb (sx_sign Monochrome1Bit)
  /\ Uncolored (sx_sign Monochrome1Bit) ex_plain
  /\ shapes (pages_take Debug ex_neg 9 (pages_new ex_neg ex_plain)) = Val [ShPage 20 12 30; ShPage 20 12 7].
Proof.
  split; [apply gx_built|]. split; [exact ex_neg_built|]. split; [unfold SameFace; cbn; splits; reflexivity|].
  split; [reflexivity|]. split; [reflexivity|]. split; [|vm_compute; reflexivity].
  intros v (ts & t & HT & HI & HD). apply (split_iff Debug) in HT. vm_compute in HT. injection HT as <-.
  pose proof (denotes_vals [t] [Ok v] (Forall2_cons _ _ HD (Forall2_nil _))) as E. injection E as E. clear HD.
  repeat (destruct HI as [<-|HI]; [vm_compute in E; injection E as <-;
    (split; [intros c H; inversion H|intros k pos g H; try discriminate H; injection H as <- <-; rewrite <- FirstGraphic_lookup; vm_compute; intros [= <-]; reflexivity])|]).
  contradiction.
Qed.
