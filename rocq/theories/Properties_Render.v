(** Properties C37 to C41, C43, C48, C49 and C51: pages of a message. *)

From Coq Require Import String.
From Verif Require Import Base Str Multi Color Raster Font Graphic Config Sign Render
  Spec_Multi Spec_Color Spec_Graphic Spec_Sign Spec_Render
  Proofs_Str Proofs_Split Proofs_Tag Proofs_Norm Proofs_Color Proofs_Sign Proofs_Iter Proofs_Machine Proofs_Pages
  Proofs_Reach Proofs_Ends Proofs_Ext Proofs_Count Proofs_Render Examples_Sign.
Open Scope list_scope.

(** What rendering yields, without the pixels. *)
Inductive Shape := ShPage (w h duration : Z) | ShErr (e : SyntaxError).
Definition shape (r : result Page SyntaxError) : Shape :=
  match r with
  | Ok p => ShPage (r_width (pg_raster p)) (r_height (pg_raster p)) (pg_duration p)
  | Err e => ShErr e
  end.
Definition shapes (m : M (list (result Page SyntaxError))) : M (list Shape) :=
  let! l := m in Val (map shape l).

Lemma shapes_val m l : shapes m = Val l -> exists k, m = Val k /\ map shape k = l.
Proof. unfold shapes. destruct m as [k| |]; cbn; intros [= <-]. eauto. Qed.

(** ** C37: page sizes *)

(** Every ON page of every message has the size of the sign. *)
Theorem c37_on_page : forall md d ms p pg p',
  Reaches md d ms p -> (exists b, p_state p = PsOn b) ->
  pages_next md d p = Val (Some (Ok pg), p') -> SignSized d (pg_raster pg).
Proof. exact on_page_size. Qed.
Print Assumptions c37_on_page.

(** So has every page, ON or OFF, of a message without [tr] tags. *)
Theorem c37_no_rect_partial : forall md d n ms ts l pg, Tokens ms ts ->
  (forall t r, In t ts -> ~ TokenDenotes t (Ok (VTextRectangle r))) ->
  pages_take md d n (pages_new d ms) = Val l -> In (Ok pg) l -> SignSized d (pg_raster pg).
Proof. exact sizes_no_rect. Qed.
Print Assumptions c37_no_rect_partial.

(** An OFF page has the size of the last text rectangle of the page before it,
    or of the sign when that page [vs] has none. *)
Theorem c37_off_page_partial : forall md d ms p pg p1 q p2 b s rs vs,
  Reaches md d ms p -> (exists b, p_state p = PsOn b) -> Unread p s -> Meaning s rs ->
  pages_next md d p = Val (Some (Ok pg), p1) -> FirstPage rs vs ->
  p_state p1 = PsOff b -> pages_next md d p1 = Val (Some (Ok q), p2) ->
  (text_rects vs = O -> SignSized d (pg_raster q))
  /\ (forall x r y, vs = x ++ VTextRectangle r :: y -> text_rects y = O -> 1 <= rx r -> 1 <= ry r ->
        0 <= rwidth r -> 0 <= rheight r ->
        let e := rect_on (sign_width_pixels (d_vms_cfg d)) (sign_height_pixels (d_vms_cfg d)) r in
        r_width (pg_raster q) = rwidth e /\ r_height (pg_raster q) = rheight e).
Proof. exact off_page_exact. Qed.
Print Assumptions c37_off_page_partial.

(** Full claim: every page has the size of the sign.  False for OFF pages. *)
Theorem c37_refuted : exists md d ms on off,
  Yields md d ms [Ok on; Ok off] /\ SignSized d (pg_raster on) /\ ~ SignSized d (pg_raster off).
Proof.
  set (d := sx_sign Color24Bit). set (ms := lit "[pt10o5][tr1,1,10,10]A").
  destruct (shapes_val (pages_take Debug d 3 (pages_new d ms)) [ShPage 20 12 10; ShPage 10 10 5])
    as (k & H & E); [vm_compute; reflexivity|].
  destruct k as [|[on|e] [|[off|e2] [|]]]; try discriminate E.
  exists Debug, d, ms, on, off. injection E as E1 E2 _ E4 E5 _. splits.
  - exists 3%nat. split; [exact H|repeat constructor].
  - split; [exact E1|exact E2].
  - intros [C _]. rewrite E4 in C. discriminate C.
Qed.
Print Assumptions c37_refuted.

(** The start of a rendering meets the hypotheses about reached states. *)
Lemma start_unread d ms : Unread (pages_new d ms) ms.
Proof. exists []. auto. Qed.
Lemma start_on d ms : exists b, p_state (pages_new d ms) = PsOn b.
Proof. exists true. reflexivity. Qed.

Example c37_example :
  shapes (pages_take Debug (sx_sign Color24Bit) 9 (pages_new (sx_sign Color24Bit) (lit "[pt10o5]A[jl3]B[np][cb1]B")))
  = Val [ShPage 20 12 10; ShPage 20 12 5; ShPage 20 12 10; ShPage 20 12 5]
  /\ match pages_next Debug (sx_sign Color24Bit) (pages_new (sx_sign Color24Bit) (lit "[pt10o5][tr1,1,10,10]A")) with
     | Val (Some (Ok pg), p1) => p_state p1 = PsOff false
     | _ => False
     end.
Proof. split; vm_compute; reflexivity. Qed.

(** ** C38: page sequence *)

(** A message that renders without error consists of values; cut at its [np]
    tags it is shown as one ON page each, with OFF pages and durations as in
    [PageSequence]. *)
Theorem c38_page_sequence : forall md d ms ps, Yields md d ms (map Ok ps) ->
  exists vs pgs, Meaning ms (map Ok vs) /\ SplitPages vs pgs
    /\ PageSequence (default_page_on_time (d_multi_cfg d)) (default_page_off_time (d_multi_cfg d)) [] pgs ps.
Proof. exact page_sequence. Qed.
Print Assumptions c38_page_sequence.

(** The cut is unambiguous, and so are durations and the number of pages. *)
Theorem c38_split_unique : forall vs pgs pgs', SplitPages vs pgs -> SplitPages vs pgs' -> pgs = pgs'.
Proof. exact split_unique. Qed.
Print Assumptions c38_split_unique.

Theorem c38_sequence_unique : forall on off before pgs l l',
  PageSequence on off before pgs l -> PageSequence on off before pgs l' ->
  map pg_duration l = map pg_duration l'.
Proof. exact sequence_unique. Qed.
Print Assumptions c38_sequence_unique.

Example c38_example :
  shapes (pages_take Debug (sx_sign Color24Bit) 9 (pages_new (sx_sign Color24Bit) (lit "A[np][pt5o7]B[np]A[pto]")))
  = Val [ShPage 20 12 30; ShPage 20 12 5; ShPage 20 12 7; ShPage 20 12 30].
Proof. vm_compute. reflexivity. Qed.

(** ** C39: ending *)

(** Full claim: rendering yields finitely many items.  False: an unsupported
    tag makes the iterator give the same error for ever. *)
Theorem c39_refuted : exists md d ms e, forall k, pages_take md d k (pages_new d ms) = Val (repeat (Err e) k).
Proof.
  exists Debug, (sx_sign Color24Bit), (lit "[f5]A"), (SUnsupportedTag (lit "[f5]")).
  assert (H : pages_next Debug (sx_sign Color24Bit) (pages_new (sx_sign Color24Bit) (lit "[f5]A"))
            = Val (Some (Err (SUnsupportedTag (lit "[f5]"))), pages_new (sx_sign Color24Bit) (lit "[f5]A")))
    by (vm_compute; reflexivity).
  induction k as [|k IH]; [reflexivity|]. cbn [pages_take repeat]. rewrite H. cbn [bind]. rewrite IH. reflexivity.
Qed.
Print Assumptions c39_refuted.

(** Every rendering ends within [3 n + 2] items for a message of [n] pieces, or
    panics within as many, or from some item on gives one error for ever. *)
Theorem c39_ends_partial : forall md d ms ts, Tokens ms ts ->
  (exists l, Yields md d ms l /\ List.length l <= 3 * List.length ts + 2)%nat
  \/ (exists n, (n <= 3 * List.length ts + 3)%nat /\ pages_take md d n (pages_new d ms) = Panic)
  \/ (exists l e, (List.length l <= 3 * List.length ts + 2)%nat
       /\ forall k, pages_take md d (List.length l + k) (pages_new d ms) = Val (l ++ repeat (Err e) k)).
Proof. exact take_cases. Qed.
Print Assumptions c39_ends_partial.

(** A rendering that gives no error ends. *)
Theorem c39_no_error_partial : forall md d ms ts, Tokens ms ts ->
  (forall n, exists ps, pages_take md d n (pages_new d ms) = Val (map Ok ps)) ->
  exists ps, Yields md d ms (map Ok ps).
Proof. exact no_error_ends. Qed.
Print Assumptions c39_no_error_partial.

(** Each item is computed in finite time. *)
Theorem c39_items_end : forall md d n ms, pages_take md d n (pages_new d ms) <> Hang.
Proof. exact pages_run. Qed.
Print Assumptions c39_items_end.

Example c39_example :
  shapes (pages_take Debug (sx_sign Color24Bit) 3 (pages_new (sx_sign Color24Bit) (lit "A[tr1,1,99,1]B[np]A")))
  = Val [ShErr (SUnsupportedTagValue (lit "[tr1,1,99,1]")); ShPage 20 12 30; ShPage 20 12 30]
  /\ shapes (pages_take Debug (sx_sign Color24Bit) 9 (pages_new (sx_sign Color24Bit) (lit "A[tr1,1,99,1]B[np]A")))
  = Val [ShErr (SUnsupportedTagValue (lit "[tr1,1,99,1]")); ShPage 20 12 30; ShPage 20 12 30].
Proof. split; vm_compute; reflexivity. Qed.

(** ** C40: unsupported tags *)

(** The first malformed piece or unlisted tag of a page is reported. *)
Theorem c40_refused : forall md d ms p s vs x e rest, Reaches md d ms p -> (exists b, p_state p = PsOn b) ->
  Unread p s -> Meaning s (map Ok vs ++ x :: rest) -> no_page_break vs -> Forall (Supports d) vs ->
  Refused d x e -> exists p', pages_next md d p = Val (Some (Err e), p').
Proof. exact page_refused. Qed.
Print Assumptions c40_refused.

(** A page is yielded only when the sign lists all its tags (the [np] that
    ends it included). *)
Theorem c40_supported : forall md d ms p s rs pg p', Reaches md d ms p -> (exists b, p_state p = PsOn b) ->
  Unread p s -> Meaning s rs -> pages_next md d p = Val (Some (Ok pg), p') ->
  exists vs, FirstPage rs vs /\ Forall (Supports d) vs /\ (rs = map Ok vs \/ Lists d TNp).
Proof. exact page_supported. Qed.
Print Assumptions c40_supported.

(** Full claim: every tag the sign does not support is refused with an error.
    False: no sign can list [f0], and rendering it panics. *)
Theorem c40_field_refuted : exists b d v, builder_fields b /\ build Debug b = Val (Ok d)
  /\ Meaning (lit "[f0]") [Ok v] /\ (forall t, ~ WrittenWith v t)
  /\ pages_take Debug d 1 (pages_new d (lit "[f0]")) = Panic
  /\ pages_take Release d 1 (pages_new d (lit "[f0]")) = Panic.
Proof.
  exists (sx_builder Color24Bit), (sx_sign Color24Bit), (VField 0 None). splits.
  - apply sx_builder_fields.
  - vm_compute. reflexivity.
  - apply (values_meaning Debug). vm_compute. reflexivity.
  - intros t H. apply value_tag_iff in H. discriminate.
  - vm_compute. reflexivity.
  - vm_compute. reflexivity.
Qed.
Print Assumptions c40_field_refuted.

Example c40_example : exists vs x rest,
  Meaning (lit "A[cb1][f5]B") (map Ok vs ++ x :: rest) /\ no_page_break vs
  /\ Forall (Supports (sx_sign Color24Bit)) vs /\ Refused (sx_sign Color24Bit) x (SUnsupportedTag (lit "[f5]"))
  /\ Reaches Debug (sx_sign Color24Bit) (lit "A[cb1][f5]B") (pages_new (sx_sign Color24Bit) (lit "A[cb1][f5]B")).
Proof.
  exists [VText (lit "A"); VColorBackground (Some (Legacy 1))], (Ok (VField 5 None)), [Ok (VText (lit "B"))].
  splits.
  - apply (values_meaning Debug). vm_compute. reflexivity.
  - intros [E|[E|[]]]; discriminate.
  - repeat constructor; intros t H; inversion H; subst; reflexivity.
  - apply (Rf_tag _ (VField 5 None) TF5); [exact (Ww_f 4 None TF5 eq_refl)|]. vm_compute. discriminate.
  - constructor.
Qed.

(** ** C43: text rectangles *)

(** A [tr] tag read by the renderer is accepted, and its rectangle put in
    force, exactly when it is good. *)
Theorem c43_text_rectangle_partial : forall md d p raster s r rest, u16_rect r -> 1 <= rx r -> 1 <= ry r ->
  vms_fields (d_vms_cfg d) ->
  arith_ok md (sign_width_pixels (d_vms_cfg d)) (sign_height_pixels (d_vms_cfg d)) r ->
  p_default p = rs_new d -> Unread p s -> Meaning s (Ok (VTextRectangle r) :: rest) ->
  exists p' res, render_text_rectangle md d p raster = Val (p', res)
    /\ (GoodTextRect d r -> res = Ok raster /\ p_state p' = PsOn false
          /\ rs_rect (p_rs p') = rect_on (sign_width_pixels (d_vms_cfg d)) (sign_height_pixels (d_vms_cfg d)) r)
    /\ (~ GoodTextRect d r -> res = Err (SUnsupportedTagValue (display (VTextRectangle r)))).
Proof.
  intros md d p raster s r rest Ur Hx Hy (V1 & V2 & V3 & V4 & _) A HD HU HM. unfold u8 in *.
  eapply text_rect_tag; eauto; lia.
Qed.
Print Assumptions c43_text_rectangle_partial.

(** All text rectangles of a yielded page are good. *)
Theorem c43_page_partial : forall md d ms p s rs pg p' vs, Reaches md d ms p -> (exists b, p_state p = PsOn b) ->
  Unread p s -> Meaning s rs -> pages_next md d p = Val (Some (Ok pg), p') -> FirstPage rs vs ->
  vms_fields (d_vms_cfg d) ->
  forall r, In (VTextRectangle r) vs -> u16_rect r -> 1 <= rx r -> 1 <= ry r ->
  arith_ok md (sign_width_pixels (d_vms_cfg d)) (sign_height_pixels (d_vms_cfg d)) r ->
  GoodTextRect d r.
Proof. exact page_good_rects. Qed.
Print Assumptions c43_page_partial.

(** Full claim: every other rectangle is refused with an error.  False in Debug
    mode when its edges do not fit 16 bits. *)
Theorem c43_refuted : exists b d r, builder_fields b /\ build Debug b = Val (Ok d)
  /\ Meaning (lit "[tr65535,1,1,1]") [Ok (VTextRectangle r)] /\ ~ GoodTextRect d r
  /\ pages_take Debug d 1 (pages_new d (lit "[tr65535,1,1,1]")) = Panic.
Proof.
  exists (sx_builder Color24Bit), (sx_sign Color24Bit), (mkRect 65535 1 1 1). splits.
  - apply sx_builder_fields.
  - vm_compute. reflexivity.
  - apply (values_meaning Debug). vm_compute. reflexivity.
  - unfold GoodTextRect. cbn. lia.
  - vm_compute. reflexivity.
Qed.
Print Assumptions c43_refuted.

Example c43_example : GoodTextRect (sx_sign Color24Bit) (mkRect 3 2 0 5)
  /\ ~ GoodTextRect (sx_sign Color24Bit) (mkRect 3 2 19 5)
  /\ arith_ok Debug 20 12 (mkRect 3 2 0 5)
  /\ shapes (pages_take Debug (sx_sign Color24Bit) 1 (pages_new (sx_sign Color24Bit) (lit "[tr3,2,0,5]A[tr3,2,19,5]")))
     = Val [ShErr (SUnsupportedTagValue (lit "[tr3,2,19,5]"))].
Proof.
  splits.
  - unfold GoodTextRect, on_boundary. cbn. splits; try lia; auto.
  - unfold GoodTextRect. cbn. lia.
  - unfold arith_ok, edges_fit. cbn. lia.
  - vm_compute. reflexivity.
Qed.

(** A sign of 0 by 0 pixels can be built, and takes the rectangle of the whole sign. *)
Definition sx_null_vms : VmsCfg := mkVmsCfg 0 0 0 0 70 70 (255, 112, 224) (0, 0, 0).
Definition sx_null : Dms := mkDms sx_sign_cfg sx_null_vms [sx_font; font_default 2] (sx_multi Color24Bit) [graphic_default].
Example c43_null_example :
  build Debug (mkBuilder sx_sign_cfg sx_null_vms [sx_font; font_default 2] (sx_multi Color24Bit) [graphic_default]) = Val (Ok sx_null)
  /\ GoodTextRect sx_null (mkRect 1 1 0 0) /\ ~ GoodTextRect sx_null (mkRect 1 1 1 0)
  /\ shapes (pages_take Debug sx_null 2 (pages_new sx_null (lit "[tr1,1,0,0]"))) = Val [ShPage 0 0 30]
  /\ shapes (pages_take Debug sx_null 1 (pages_new sx_null (lit "[tr1,1,1,0]")))
     = Val [ShErr (SUnsupportedTagValue (lit "[tr1,1,1,0]"))].
Proof.
  splits.
  - vm_compute. reflexivity.
  - unfold GoodTextRect, on_boundary. cbn. splits; auto; lia.
  - unfold GoodTextRect. cbn. lia.
  - vm_compute. reflexivity.
  - vm_compute. reflexivity.
Qed.

(** ** C48: later pages do not matter *)

(** On a sign that lists [np], the pages rendered without error for [ms1] come
    first, unchanged, for [ms1] followed by [np] and anything. *)
Theorem c48_prefix_partial : forall md d ms1 ms2 n ps, Lists d TNp ->
  pages_take md d n (pages_new d ms1) = Val (map Ok ps) ->
  pages_take md d (List.length ps) (pages_new d (ms1 ++ lit "[np]" ++ ms2)) = Val (map Ok ps).
Proof. exact pages_cont. Qed.
Print Assumptions c48_prefix_partial.

(** A sign of one page that does not list [np]. *)
Definition sx_single : Dms :=
  mkDms sx_sign_cfg sx_vms [sx_font; font_default 2]
    (mkMultiCfg (Legacy 0) (Legacy 9) 5 5 1 JlLeft JpTop 30 0 2 Color24Bit
       (tag_set [TFo; TTr]) 1 1000) [].

(** Full claim: for all signs.  False without [np]: the page is refused. *)
Theorem c48_refuted : exists md d ms1 ms2 ps,
  pages_take md d 2 (pages_new d ms1) = Val (map Ok ps) /\ ps <> []
  /\ pages_take md d (List.length ps) (pages_new d (ms1 ++ lit "[np]" ++ ms2)) <> Val (map Ok ps).
Proof.
  exists Debug, sx_single, (lit "A"), (lit "A").
  destruct (shapes_val (pages_take Debug sx_single 2 (pages_new sx_single (lit "A"))) [ShPage 20 12 30])
    as (k & H & E); [vm_compute; reflexivity|].
  destruct k as [|[pg|e] [|]]; try discriminate E. exists [pg]. cbn [map]. splits; [exact H|discriminate|].
  cbn [List.length map]. intros C.
  assert (C2 : pages_take Debug sx_single 1 (pages_new sx_single (lit "A" ++ lit "[np]" ++ lit "A"))
             = Val [Err (SUnsupportedTag (lit "[np]"))]) by (vm_compute; reflexivity).
  rewrite C2 in C. discriminate C.
Qed.
Print Assumptions c48_refuted.

Example c48_example : Lists (sx_sign Color24Bit) TNp
  /\ shapes (pages_take Debug (sx_sign Color24Bit) 5 (pages_new (sx_sign Color24Bit) (lit "A[np]B"))) =
     Val [ShPage 20 12 30; ShPage 20 12 30]
  /\ shapes (pages_take Debug (sx_sign Color24Bit) 5 (pages_new (sx_sign Color24Bit) (lit "A[np]B[np][pt9]A"))) =
     Val [ShPage 20 12 30; ShPage 20 12 30; ShPage 20 12 9].
Proof. splits; vm_compute; reflexivity. Qed.

(** ** C49: limit on text rectangles *)

(** The error about too many text rectangles is only given for a page with at
    least 50 [tr] tags, *)
Theorem c49_not_too_many : forall md d ms p s rs p', Reaches md d ms p -> (exists b, p_state p = PsOn b) ->
  Unread p s -> Meaning s rs ->
  pages_next md d p = Val (Some (Err (SOther (lit "Too many text rectangles"))), p') ->
  exists vs tail, rs = map Ok vs ++ tail /\ no_page_break vs /\ (50 <= text_rects vs)%nat.
Proof. exact page_too_many. Qed.
Print Assumptions c49_not_too_many.

(** and no page with more than 49 is ever yielded. *)
Theorem c49_too_many : forall md d ms p s rs pg p', Reaches md d ms p -> (exists b, p_state p = PsOn b) ->
  Unread p s -> Meaning s rs -> pages_next md d p = Val (Some (Ok pg), p') ->
  exists vs, FirstPage rs vs /\ (text_rects vs <= 49)%nat.
Proof. exact page_rects_limit. Qed.
Print Assumptions c49_too_many.

Theorem c49_page_unique : forall rs vs vs', FirstPage rs vs -> FirstPage rs vs' -> vs = vs'.
Proof. exact FirstPage_fun. Qed.
Print Assumptions c49_page_unique.

Example c49_example :
  shapes (pages_take Debug (sx_sign Color24Bit) 2 (pages_new (sx_sign Color24Bit)
     (List.concat (repeat (lit "[tr1,1,0,0]") 49)))) = Val [ShPage 20 12 30]
  /\ shapes (pages_take Debug (sx_sign Color24Bit) 1 (pages_new (sx_sign Color24Bit)
     (List.concat (repeat (lit "[tr1,1,0,0]") 50)))) = Val [ShErr (SOther (lit "Too many text rectangles"))].
Proof. split; vm_compute; reflexivity. Qed.

(** ** C51: number of pages *)

(** Full claim: messages with more pages than the sign allows yield
    TooManyPages.  False: that error is never given by any rendering, *)
Theorem c51_never : forall md d ms p p', Reaches md d ms p ->
  pages_next md d p <> Val (Some (Err STooManyPages), p').
Proof. exact never_too_many_pages. Qed.
Print Assumptions c51_never.

(** and five pages are shown on a sign of at most four. *)
Theorem c51_refuted : exists b d ps, builder_fields b /\ build Debug b = Val (Ok d)
  /\ max_number_pages (d_multi_cfg d) = 4 /\ List.length ps = 5%nat
  /\ Yields Debug d (lit "A[np]A[np]A[np]A[np]A") (map Ok ps).
Proof.
  exists (sx_builder Color24Bit), (sx_sign Color24Bit).
  destruct (shapes_val (pages_take Debug (sx_sign Color24Bit) 6
     (pages_new (sx_sign Color24Bit) (lit "A[np]A[np]A[np]A[np]A"))) (repeat (ShPage 20 12 30) 5))
    as (k & H & E); [vm_compute; reflexivity|].
  destruct k as [|[p1|] [|[p2|] [|[p3|] [|[p4|] [|[p5|] [|]]]]]]; try discriminate E.
  exists [p1; p2; p3; p4; p5]. splits.
  - apply sx_builder_fields.
  - vm_compute. reflexivity.
  - reflexivity.
  - reflexivity.
  - cbn [map]. exists 6%nat. split; [exact H|repeat constructor].
Qed.
Print Assumptions c51_refuted.

(** ** C41: panics (the conditions under which there are none are in
    Properties_Safe.v) *)

(** Built signs panic on an unsupportable field tag (both modes), *)
Theorem c41_field_refuted : exists b d, builder_fields b /\ build Debug b = Val (Ok d)
  /\ pages_take Release d 1 (pages_new d (lit "[f0]")) = Panic.
Proof.
  exists (sx_builder Color24Bit), (sx_sign Color24Bit). splits; [apply sx_builder_fields|vm_compute; reflexivity..].
Qed.
Print Assumptions c41_field_refuted.

(** on a text rectangle whose edge does not fit 16 bits, and on 256 line breaks
    (Debug mode). *)
Theorem c41_overflow_refuted : exists b d, builder_fields b /\ build Debug b = Val (Ok d)
  /\ pages_take Debug d 1 (pages_new d (lit "[tr65535,1,10,10]")) = Panic
  /\ pages_take Debug d 1 (pages_new d (List.concat (repeat (lit "[nl]") 256))) = Panic.
Proof.
  exists (sx_builder Color24Bit), (sx_sign Color24Bit). splits; [apply sx_builder_fields|vm_compute; reflexivity..].
Qed.
Print Assumptions c41_overflow_refuted.
