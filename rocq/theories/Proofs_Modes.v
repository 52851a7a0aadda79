(** Debug and release builds: whatever a debug build computes without
    panicking, a release build computes too. *)

From Coq Require Import String.
From Verif Require Import Base Str Multi Color Raster Font Graphic Config Sign Render
  Spec_Multi Spec_Render Proofs_Str Proofs_Iter Proofs_Machine Proofs_Pages.
Open Scope list_scope.

Definition agree {A} (a b : M A) : Prop := forall v, a = Val v -> b = Val v.

Lemma agree_refl {A} (a : M A) : agree a a.
Proof. intros v; auto. Qed.

Lemma agree_panic {A} (b : M A) : agree Panic b.
Proof. intros v H. discriminate H. Qed.

Lemma agree_bind {A B} (a b : M A) (k l : A -> M B) :
  agree a b -> (forall x, agree (k x) (l x)) -> agree (bind a k) (bind b l).
Proof.
  intros H K v. destruct a as [x| |]; cbn [bind]; intros E; try discriminate E.
  rewrite (H x eq_refl). cbn [bind]. now apply K.
Qed.

Lemma agree_try {A B F} (a b : M (result A F)) (k l : A -> M (result B F)) :
  agree a b -> (forall x, agree (k x) (l x)) -> agree (try a k) (try b l).
Proof.
  intros H K v. destruct a as [[x|e]| |]; cbn [try]; intros E; try discriminate E;
    rewrite (H _ eq_refl); cbn [try]; auto. now apply K.
Qed.

Lemma agree_map_err {A F G} (g : F -> G) (a b : M (result A F)) :
  agree a b -> agree (map_err g a) (map_err g b).
Proof. intros H. apply agree_bind; auto. intros. apply agree_refl. Qed.

Lemma agree_chk b v : agree (chk Debug b v) (chk Release b v).
Proof. unfold chk. destruct (_ && _); [apply agree_refl|apply agree_panic]. Qed.
Lemma agree_chk8 v : agree (chk8 Debug v) (chk8 Release v).
Proof. apply agree_chk. Qed.
Lemma agree_chk16 v : agree (chk16 Debug v) (chk16 Release v).
Proof. apply agree_chk. Qed.
Lemma agree_chk_i32 v : agree (chk_i32 Debug v) (chk_i32 Release v).
Proof. unfold chk_i32. destruct (_ && _); [apply agree_refl|apply agree_panic]. Qed.

Ltac agr1 :=
  match goal with
  | |- forall _, _ => intros ?
  | |- agree ?a ?a => apply agree_refl
  | |- agree Panic _ => apply agree_panic
  | |- agree (chk8 _ _) _ => apply agree_chk8
  | |- agree (chk16 _ _) _ => apply agree_chk16
  | |- agree (chk_i32 _ _) _ => apply agree_chk_i32
  | |- agree (bind _ _) (bind _ _) => apply agree_bind
  | |- agree (try _ _) (try _ _) => apply agree_try
  | |- agree (map_err _ _) (map_err _ _) => apply agree_map_err
  | |- agree (match ?x with _ => _ end) (match ?x with _ => _ end) => destruct x
  | |- agree (match ?x with _ => _ end) _ => destruct x
  | |- _ => solve [auto]
  end.
Ltac agr := repeat agr1.

Lemma agree_render_bits x y w h cf b bis : forall page xx yy,
  agree (render_bits Debug page x y w h cf b bis xx yy) (render_bits Release page x y w h cf b bis xx yy).
Proof. induction bis as [|bi bis IH]; intros; cbn [render_bits]; cbv zeta; agr. Qed.

Lemma agree_render_bytes x y w h cf bs : forall page xx yy,
  agree (render_bytes Debug page x y w h cf bs xx yy) (render_bytes Release page x y w h cf bs xx yy).
Proof.
  induction bs as [|b bs IH]; intros; cbn [render_bytes]; agr.
  apply agree_render_bits.
Qed.

Lemma agree_text_width f cs t : agree (text_width Debug f t cs) (text_width Release f t cs).
Proof.
  unfold text_width. generalize 0. generalize (match cs with Some c => c | None => f_char_spacing f end).
  intros s. induction t as [|c t IH]; intros z; cbn [text_width_loop]; agr.
Qed.

Lemma agree_render_text f cs cf x y t page :
  agree (font_render_text Debug f page t x y cs cf) (font_render_text Release f page t x y cs cf).
Proof.
  unfold font_render_text. generalize 0. revert page.
  induction t as [|c t IH]; intros page z; cbn [render_text_loop]; agr.
  apply agree_render_bytes.
Qed.

Lemma agree_intersection a b : agree (intersection Debug a b) (intersection Release a b).
Proof. unfold intersection. agr. Qed.

Lemma agree_render_rect r q c v : agree (render_rect Debug r q c v) (render_rect Release r q c v).
Proof. unfold render_rect. agr. apply agree_intersection. Qed.

Lemma agree_render_graphic g r x y c : agree (render_graphic Debug g r x y c) (render_graphic Release g r x y c).
Proof. unfold render_graphic. agr. Qed.

Lemma agree_graphics d vs : forall ctx r,
  agree (render_graphics_loop Debug d vs ctx r) (render_graphics_loop Release d vs ctx r).
Proof.
  induction vs as [|[m m'] vs IH]; intros; cbn [render_graphics_loop]; agr.
  all: solve [apply agree_render_rect | apply agree_render_graphic].
Qed.

Lemma agree_update d ds r : agree (update_text_rectangle Debug d ds r) (update_text_rectangle Release d ds r).
Proof. unfold update_text_rectangle. agr. apply agree_intersection. Qed.

Lemma agree_rtr d ds po xs : forall rs spans lb,
  agree (a_rtr Debug d ds po xs rs spans lb) (a_rtr Release d ds po xs rs spans lb).
Proof.
  induction xs as [|m xs IH]; intros; cbn [a_rtr]; cbv zeta; agr.
  apply agree_update.
Qed.

Lemma agree_span_width s fs : agree (span_width Debug s fs) (span_width Release s fs).
Proof. unfold span_width. agr. apply agree_text_width. Qed.

Lemma agree_offset_horiz_loop fs rs l : forall prev a b,
  agree (offset_horiz_loop Debug fs rs l prev a b) (offset_horiz_loop Release fs rs l prev a b).
Proof.
  induction l as [|t l IH]; intros; cbn [offset_horiz_loop]; [apply agree_refl|].
  apply agree_try; [agr|]. intros []. apply agree_try; [apply agree_span_width|agr].
Qed.

Lemma agree_offset_horiz d spans s : agree (offset_horiz Debug d spans s) (offset_horiz Release d spans s).
Proof. unfold offset_horiz. apply agree_try; [apply agree_offset_horiz_loop|agr]. Qed.

Lemma agree_span_x d spans s : agree (span_x Debug d spans s) (span_x Release d spans s).
Proof.
  unfold span_x, span_x_left, span_x_center, span_x_right. agr.
  all: apply agree_offset_horiz.
Qed.

Lemma agree_offset_vert_loop full sln lines : forall prev ln a b,
  agree (offset_vert_loop Debug full sln lines prev ln a b) (offset_vert_loop Release full sln lines prev ln a b).
Proof. induction lines as [|l r IH]; intros; cbn [offset_vert_loop]; cbv zeta; agr. Qed.

Lemma agree_offset_vert d spans s : agree (offset_vert Debug d spans s) (offset_vert Release d spans s).
Proof.
  unfold offset_vert. apply agree_try; [agr|]. intros lines. apply agree_bind; [|agr].
  apply agree_offset_vert_loop.
Qed.

Lemma agree_span_y d spans s : agree (span_y Debug d spans s) (span_y Release d spans s).
Proof.
  unfold span_y, baseline, baseline_top, baseline_middle, baseline_bottom. agr.
  all: apply agree_offset_vert.
Qed.

Lemma agree_text_spans d spans r : agree (render_text_spans Debug d spans r) (render_text_spans Release d spans r).
Proof.
  unfold render_text_spans. apply agree_try; [agr|]. intros _. generalize spans at 2 4. intros todo.
  revert r. induction todo as [|s todo IH]; intros r; cbn [render_spans_loop]; agr.
  - apply agree_span_x.
  - apply agree_span_y.
  - unfold span_render_text. agr. apply agree_render_text.
Qed.

Lemma agree_text_rect d p r : agree (a_text_rect Debug d p r) (a_text_rect Release d p r).
Proof. unfold a_text_rect. agr. apply agree_rtr. apply agree_text_spans. Qed.

Lemma agree_page_loop d fuel : forall n p r, agree (a_page_loop Debug d fuel n p r) (a_page_loop Release d fuel n p r).
Proof.
  induction fuel as [|f IH]; intros; cbn [a_page_loop]; [intros v E; discriminate E|]. cbv zeta.
  agr. apply agree_graphics. apply agree_text_rect.
Qed.

Lemma agree_on_page d p : agree (a_on_page Debug d p) (a_on_page Release d p).
Proof. unfold a_on_page. cbv zeta. agr. apply agree_page_loop. Qed.

Lemma agree_next d p : agree (a_next Debug d p) (a_next Release d p).
Proof. unfold a_next. agr. apply agree_on_page. Qed.

Lemma agree_take d n : forall p, agree (a_take Debug d n p) (a_take Release d n p).
Proof.
  induction n as [|n IH]; intros p; cbn [a_take]; [apply agree_refl|].
  agr. apply agree_next.
Qed.

Lemma MRel_iff {A B} (R : A -> B -> Prop) x y : MRel R x y ->
  (forall a, x = Val a -> exists b, y = Val b /\ R a b) /\ (forall b, y = Val b -> exists a, x = Val a /\ R a b).
Proof.
  destruct x, y; cbn; try contradiction; intros H; split; intros ? E; try discriminate E;
    injection E as <-; eauto.
Qed.

Lemma take_modes d n ms l : pages_take Debug d n (pages_new d ms) = Val l ->
  pages_take Release d n (pages_new d ms) = Val l.
Proof.
  destruct (Reads_exists ms) as [xs Hx]. rewrite !(take_start _ d n ms xs Hx). apply agree_take.
Qed.
