(** Pages of release builds are those of debug builds, unless a number wraps around. *)

From Coq Require Import Lia.
From Verif Require Import Base Str Multi Color Raster Font Graphic Config Sign Render
  Spec_Multi Spec_Sign Spec_Render Spec_Layout Spec_Page Spec_Fail Proofs_Str Proofs_Pages Proofs_Unique.
Open Scope list_scope.

Lemma pages_debug d ms md n ps : Built d -> (md = Release -> ~ Wraps d ms) ->
  pages_take md d n (pages_new d ms) = Val (map Ok ps) -> pages_take Debug d n (pages_new d ms) = Val (map Ok ps).
Proof.
  intros HB HN H. destruct md; [exact H|]. specialize (HN eq_refl).
  destruct (pages_take Debug d n (pages_new d ms)) as [l| |] eqn:E.
  - apply Proofs_Modes.take_modes in E. congruence.
  - exfalso. destruct (total_modes d ms HB HN) as [(qs & _ & HY)|[(m & qs & e & l & _ & HT)|(qs & HT & _ & HE)]].
    + destruct (HY Debug) as (m & HD & L). destruct (Nat.le_gt_cases n m) as [M|M].
      * rewrite (take_firstn Debug d _ n _ _ HD M) in E. discriminate E.
      * rewrite (take_done Debug d m _ _ HD L n ltac:(lia)) in E. discriminate E.
    + destruct (Nat.le_gt_cases n m) as [M|M].
      * rewrite (take_firstn Debug d _ n _ _ (HT Debug) M) in E. discriminate E.
      * pose proof (take_firstn Release d _ m _ _ H ltac:(lia)) as X. rewrite HT in X. injection X as X.
        symmetry in X. exact (firstn_oks _ _ _ _ _ X).
    + destruct (Nat.le_gt_cases n (List.length qs)) as [M|M].
      * rewrite (take_firstn Debug d _ n _ _ (HT Debug) M) in E. discriminate E.
      * destruct HE as [(_ & X)|(e & _ & X)].
        -- exact (take_val Release d n _ _ _ H M X).
        -- rewrite (take_firstn Release d _ (S (List.length qs)) _ _ H M) in X. injection X as X.
           exact (firstn_oks _ ps _ _ (S (List.length qs)) X).
  - exfalso. destruct (total_modes d ms HB HN) as [(qs & _ & HY)|[(m & qs & e & l & _ & HT)|(qs & HT & HP & HE)]].
    + destruct (HY Debug) as (m & HD & L). destruct (Nat.le_gt_cases n m) as [M|M].
      * rewrite (take_firstn Debug d _ n _ _ HD M) in E. discriminate E.
      * rewrite (take_done Debug d m _ _ HD L n ltac:(lia)) in E. discriminate E.
    + destruct (Nat.le_gt_cases n m) as [M|M].
      * rewrite (take_firstn Debug d _ n _ _ (HT Debug) M) in E. discriminate E.
      * pose proof (take_firstn Release d _ m _ _ H ltac:(lia)) as X. rewrite HT in X. injection X as X.
        symmetry in X. exact (firstn_oks _ _ _ _ _ X).
    + destruct (Nat.le_gt_cases n (List.length qs)) as [M|M].
      * rewrite (take_firstn Debug d _ n _ _ (HT Debug) M) in E. discriminate E.
      * destruct HE as [(_ & X)|(e & _ & X)].
        -- exact (take_val Release d n _ _ _ H M X).
        -- rewrite (take_firstn Release d _ (S (List.length qs)) _ _ H M) in X. injection X as X.
           exact (firstn_oks _ ps _ _ (S (List.length qs)) X).
Qed.
