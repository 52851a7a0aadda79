(** Properties C67 and C68: messages and signs that render alike. *)

From Coq Require Import String.
From Verif Require Import Base Str Multi Color Raster Font Graphic Config Sign Render
  Spec_Multi Spec_Color Spec_Font Spec_Sign Spec_Render Spec_Gamut Spec_Alike
  Proofs_Str Proofs_Split Proofs_Case Proofs_Sign Proofs_Fail Proofs_Alike
  Examples_Sign Properties_Render Properties_Layout Properties_Page Properties_Safe.
Open Scope list_scope.

(** ** Letter case (C67) *)

(** Messages whose tags differ only in the case of letters render to the same pages
    (pixels and durations), fail on the same page with the same error, or panic
    alike; an error that quotes a tag quotes it as it was written. *)
Theorem c67_case : forall md d n ms ms', Recased ms ms' ->
  CaseItems (pages_take md d n (pages_new d ms)) (pages_take md d n (pages_new d ms')).
Proof. exact recased_pages. Qed.
Print Assumptions c67_case.

(** Two pages on the sign of [px_sign], and the error on the third. *)
Definition ax_lower : str := lit "[pt9][jl3]A[nl]B[np][cf2]AB[np]A[zz]".
Definition ax_upper : str := lit "[PT9][jL3]A[Nl]B[nP][CF2]AB[NP]A[ZZ]".

Lemma cased b b' : forallb (fun c => negb ((c =? 91) || (c =? 93))) (b ++ b') = true -> CaseEq b b' ->
  CaseToken (91 :: b ++ [93]) (91 :: b' ++ [93]).
Proof.
  intros H HE. rewrite forallb_app, andb_true_iff, !forallb_forall in H. destruct H as [H H'].
  constructor; auto; apply Forall_forall; intros c I; [apply H in I|apply H' in I]; lia.
Qed.

Ltac case_eq :=
  match goal with |- CaseEq ?a ?b =>
    let a' := eval vm_compute in a in let b' := eval vm_compute in b in change (Forall2 CaseCh a' b') end;
  repeat (apply Forall2_cons; [unfold CaseCh; lia|]); apply Forall2_nil.

Lemma ax_recased : Recased ax_lower ax_upper.
Proof.
  exists [lit "[pt9]"; lit "[jl3]"; lit "A"; lit "[nl]"; lit "B"; lit "[np]"; lit "[cf2]"; lit "AB"; lit "[np]"; lit "A"; lit "[zz]"],
    [lit "[PT9]"; lit "[jL3]"; lit "A"; lit "[Nl]"; lit "B"; lit "[nP]"; lit "[CF2]"; lit "AB"; lit "[NP]"; lit "A"; lit "[ZZ]"].
  splits; [apply (split_iff Debug); vm_compute; reflexivity..|].
  repeat (apply Forall2_cons;
    [first [apply Ct_same
           | match goal with |- CaseToken ?a ?b => apply (cased (removelast (tl a)) (removelast (tl b))) end;
             [vm_compute; reflexivity|case_eq]]|]).
  constructor.
Qed.

Lemma ax_result ms z : shapes (pages_take Debug lx_d 3 (pages_new lx_d ms)) = Val [ShPage 20 12 9; ShPage 20 12 9; ShErr (SUnsupportedTag z)] ->
  exists p q, pages_take Debug lx_d 3 (pages_new lx_d ms) = Val [Ok p; Ok q; Err (SUnsupportedTag z)].
Proof.
  intros H. apply shapes_val in H as (r & H & E). destruct r as [|[p|] [|[q|] [|[x|f] [|]]]]; try discriminate E.
  injection E as _ _ _ _ _ _ ->. eauto.
Qed.

Example c67_example : Recased ax_lower ax_upper
  /\ exists p q, pages_take Debug lx_d 3 (pages_new lx_d ax_lower) = Val [Ok p; Ok q; Err (SUnsupportedTag (lit "zz"))]
     /\ pages_take Debug lx_d 3 (pages_new lx_d ax_upper) = Val [Ok p; Ok q; Err (SUnsupportedTag (lit "ZZ"))].
Proof.
  split; [exact ax_recased|].
  destruct (ax_result ax_lower (lit "zz")) as (p & q & HL); [vm_compute; reflexivity|].
  destruct (ax_result ax_upper (lit "ZZ")) as (p' & q' & HU); [vm_compute; reflexivity|].
  pose proof (c67_case Debug lx_d 3 _ _ ax_recased) as H. rewrite HL, HU in H. cbn [CaseItems] in H.
  inversion H as [|? ? ? ? E1 H']; subst. inversion H' as [|? ? ? ? E2 _]; subst. cbn in E1, E2. subst. eauto.
Qed.

(** ** What pages depend on (C68) *)

(** Two signs of the same sizes in pixels, colours, defaults and tags render a
    message alike when they have the same fonts and graphics of the numbers it
    names, and the same default font. *)
Theorem c68_depends : forall md d d' n ms, SameSign d d' -> (forall k, UsesFont d ms k -> SameFont d d' k) ->
  (forall k, UsesGraphic ms k -> SameGraphic d d' k) ->
  pages_take md d n (pages_new d ms) = pages_take md d' n (pages_new d' ms).
Proof. exact same_pages. Qed.
Print Assumptions c68_depends.

(** The sign of [px_sign], and one of another size in millimetres, other flash times,
    and other fonts and graphics beside those the message names. *)
Definition ax_ms : str := lit "[fo1]A[g1,4,5][nl][fo]B".
Definition ax_other : Dms :=
  mkDms (mkSignCfg 0 4 1700 3000 70 70 2 2 2) (mkVmsCfg 0 0 12 20 75 75 (255, 112, 224) (0, 0, 0))
    [mkFont 7 (lit "none") 5 2 2 [mkChar 65 3 [87; 128; 0]]; sx_font]
    (mkMultiCfg (Legacy 0) (Legacy 9) 7 8 1 JlLeft JpTop 30 0 2 Color24Bit (supported_multi_tags (sx_multi Color24Bit)) 6 500)
    [mkGraphic 9 (lit "other") 2 3 Monochrome1Bit None [64]; sx_graphic].

Lemma ax_says v : Says ax_ms v -> In v [VFont (Some (1, None)); VText (lit "A"); VGraphic 1 (Some (4, 5, None)); VNewLine None; VFont None; VText (lit "B")].
Proof.
  intros (ts & t & HT & HI & HD). apply (split_iff Debug) in HT. vm_compute in HT. injection HT as <-.
  pose proof (denotes_vals [t] [Ok v] (Forall2_cons _ _ HD (Forall2_nil _))) as E. injection E as E. clear HD.
  repeat (destruct HI as [<-|HI]; [vm_compute in E; injection E as <-; cbn; tauto|]). contradiction.
Qed.

Example c68_example : SameSign lx_d ax_other /\ (forall k, UsesFont lx_d ax_ms k -> SameFont lx_d ax_other k)
  /\ (forall k, UsesGraphic ax_ms k -> SameGraphic lx_d ax_other k)
  /\ shapes (pages_take Debug ax_other 3 (pages_new ax_other ax_ms)) = Val [ShPage 20 12 30].
Proof.
  splits.
  - unfold SameSign, SameLook. cbn. splits; reflexivity.
  - intros k H. assert (k = 1) as ->.
    { destruct H as [|n v H]; [reflexivity|]. apply ax_says in H. cbn in H.
      repeat (destruct H as [H|H]; [try discriminate H; injection H; auto|]). contradiction. }
    intros f. rewrite <- !FirstFont_lookup. reflexivity.
  - intros k H. assert (k = 1) as ->.
    { destruct H as [n pos H]. apply ax_says in H. cbn in H.
      repeat (destruct H as [H|H]; [try discriminate H; injection H; auto|]). contradiction. }
    intros f. rewrite <- !FirstGraphic_lookup. reflexivity.
  - vm_compute. reflexivity.
Qed.
