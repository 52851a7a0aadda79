(** Pages of values that show nothing (C50). *)

From Coq Require Import String ZifyBool ZifyNat.
From Verif Require Import Base Str Multi Color Raster Font Graphic Config Sign Render
  Spec_Multi Spec_Color Spec_Font Spec_Tfon Spec_Graphic Spec_Sign Spec_Render Spec_Layout Spec_Page Spec_Same
  Proofs_Str Proofs_Font Proofs_Glyph Proofs_Iter Proofs_Color Proofs_Sign Proofs_Machine Proofs_Pages Proofs_Count
  Proofs_Render Proofs_Norm Proofs_Build Proofs_Horiz Proofs_Place Proofs_Each Proofs_Draw Proofs_Blank.
Open Scope list_scope.
Ltac Zify.zify_post_hook ::= Z.div_mod_to_equations.

(** Nothing can be seen of the values that show nothing. *)
Lemma take_blank md d n : Built d -> BlankSpaces d -> forall p ps, all_of (fun v => ~ Shown v) (ap_rest p) ->
  a_take md d n p = Val (map Ok ps) -> Forall (fun P => OneColour (pg_raster P)) ps.
Proof.
  intros HB HS. induction n as [|n IH]; intros p ps HA H.
  { destruct ps; [constructor|discriminate H]. }
  cbn [a_take] in H. unfold a_next in H. destruct (ap_state p) as [m|m|] eqn:EST.
  - apply bind_val in H as ([o p1] & HN & H). apply bind_val in HN as ([p2 r] & HO & HN).
    injection HN as <- <-. apply bind_val in H as (l & HK & H). cbn [fst snd] in *.
    destruct ps as [|P ps]; [discriminate H|]. injection H as -> ->.
    apply on_page_ok in HO as (vs & tail & Hx & Hn & _ & HT & _ & _ & [_ _ _ PE] & _ & _ & raster & HL & HR).
    constructor.
    + destruct (Built_vms d HB) as (_ & _ & Uh & Uw & _). unfold u16 in Uh, Uw.
      apply (page_loop_blank md d HB HS) in HL; auto.
      * destruct HL as [_ A]. exists (background_rgb (rs_ctx (page_start d (ap_rs p) vs))).
        intros x y _ _. rewrite HR, A. reflexivity.
      * unfold raster_small, build_raster, page_start, page_reset. cbn. lia.
    + apply (IH p2 ps); auto. intros v I. apply HA.
      destruct PE as [(_ & E & _)|(E & _)]; [rewrite E in I; destruct I|].
      rewrite E. apply in_or_app. right. now right.
  - cbn [bind] in H. apply bind_val in H as (l & HK & H).
    destruct ps as [|P ps]; [discriminate H|]. injection H as <- ->. constructor.
    + exists (background_rgb (rs_ctx (ap_rs p))). intros x y _ _. reflexivity.
    + eapply IH; [|exact HK]. exact HA.
  - destruct ps; [constructor|discriminate H].
Qed.

