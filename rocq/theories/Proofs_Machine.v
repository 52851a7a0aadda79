(** The page renderer over the list of values that remain to be read, and its
    agreement with the renderer over the string iterator.  These definitions
    are a proof device only: no theorem is stated about them. *)

From Coq Require Import String.
From Verif Require Import Base Str Multi Color Raster Font Graphic Config Sign Render
  Spec_Multi Proofs_Str Proofs_Iter.
Open Scope list_scope.

(** Values without iterator positions, in the shape the loops expect. *)
Definition bare (xs : Outcomes) : Items := map (fun x => (x, ms_new [])) xs.

Record AEnd := mkA {
  a_rs : RenderState; a_state : PageState; a_rest : Outcomes;
  a_spans : list Span; a_res : result unit SyntaxError }.

Fixpoint a_rtr (md : mode) (d : Dms) (ds : RenderState) (page_off : bool)
    (xs : Outcomes) (rs : RenderState) (spans : list Span) (line_blank : bool) : M AEnd :=
  match xs with
  | [] => Val (mkA rs (done page_off) [] spans (Ok tt))
  | m :: r =>
      let! x := m in
      let stop e := Val (mkA rs (done page_off) r spans (Err e)) in
      match x with
      | Err e => stop e
      | Ok val =>
          let bad := stop (SUnsupportedTagValue (display val)) in
          let go rs := a_rtr md d ds page_off r rs in
          match val with
          | VColorForeground clr =>
              let '(ctx, res) := set_foreground (rs_ctx rs) clr val in
              let rs := set_ctx rs ctx in
              match res with
              | Ok _ => go rs spans line_blank
              | Err e => Val (mkA rs (done page_off) r spans (Err e))
              end
          | VFont f =>
              go (set_font rs (match f with Some (n, _) => n | None => rs_font ds end)
                    (match f with Some (_, v) => v | None => rs_font_vid ds end))
                spans line_blank
          | VJustificationLine (Some JlOther) => bad
          | VJustificationLine (Some JlFull) => bad
          | VJustificationLine jl =>
              go (set_span (set_jl rs (match jl with Some j => j | None => rs_jl ds end)) 0)
                spans line_blank
          | VJustificationPage (Some JpOther) => bad
          | VJustificationPage jp =>
              let jp := match jp with Some j => j | None => rs_jp ds end in
              if negb (jp_eqb jp (rs_jp rs))
              then go (set_span (set_line (set_jp rs jp) 0) 0) spans line_blank
              else go rs spans line_blank
          | VNewLine ls =>
              let refused := match ls with
                             | Some n => (0 <? char_height d) && (0 <? n)
                             | None => false
                             end in
              if refused then bad
              else
                let spans := if line_blank then spans ++ [SpText rs []] else spans in
                let rs := set_line_spacing rs ls in
                let! ln := chk8 md (rs_line rs + 1) in
                go (set_span (set_line rs ln) 0) spans true
          | VNewPage => Val (mkA rs (new_page page_off) r spans (Ok tt))
          | VSpacingCharacter sc =>
              if (0 <? char_width d) && (0 <? sc) then bad
              else go (set_char_spacing rs (Some sc)) spans line_blank
          | VSpacingCharacterEnd => go (set_char_spacing rs None) spans line_blank
          | VTextRectangle rect =>
              let! o := update_text_rectangle md d ds rect in
              match o with
              | Some rect =>
                  Val (mkA (set_span (set_line (set_rect rs rect) 0) 0) (PsOn false)
                         r spans (Ok tt))
              | None => Val (mkA rs (PsOn false) r spans
                               (Err (SUnsupportedTagValue (display val))))
              end
          | VText t =>
              let spans := spans ++ [SpText rs t] in
              let! sn := chk8 md (rs_span rs + 1) in
              go (set_span rs sn) spans false
          | VHexadecimalCharacter hc =>
              if is_charb hc then
                let spans := spans ++ [SpHex rs (fstr4 hc)] in
                let! sn := chk8 md (rs_span rs + 1) in
                go (set_span rs sn) spans false
              else bad
          | _ => go rs spans line_blank
          end
      end
  end.

(** A page renderer state with the values left. *)
Record AP := mkAP { ap_rs : RenderState; ap_state : PageState; ap_rest : Outcomes }.

Definition a_text_rect (md : mode) (d : Dms) (p : AP) (raster : Raster rgb)
  : M (AP * result (Raster rgb) SyntaxError) :=
  let page_off := 0 <? rs_off_time (ap_rs p) in
  let! e := a_rtr md d (rs_new d) page_off (ap_rest p) (ap_rs p) [] true in
  let p' := mkAP (a_rs e) (a_state e) (a_rest e) in
  match a_res e with
  | Err er => Val (p', Err er)
  | Ok _ =>
      let! r := render_text_spans md d (a_spans e) raster in
      Val (p', r)
  end.

Fixpoint a_page_loop (md : mode) (d : Dms) (fuel : nat) (n : Z) (p : AP)
    (raster : Raster rgb) : M (AP * result (Raster rgb) SyntaxError) :=
  match fuel with
  | O => Hang
  | S f =>
      match ap_state p with
      | PsOn false =>
          let! g := render_graphics_loop md d (bare (ap_rest p)) (rs_ctx (ap_rs p)) raster in
          match g with
          | Err e => Val (p, Err e)
          | Ok raster =>
              let! pr := a_text_rect md d p raster in
              match pr with
              | (p, Err e) => Val (p, Err e)
              | (p, Ok raster) =>
                  let n := n + 1 in
                  if MAX_TEXT_RECTANGLES <? n
                  then Val (p, Err (SOther (lit "Too many text rectangles")))
                  else a_page_loop md d f n p raster
              end
          end
      | _ => Val (p, Ok raster)
      end
  end.

Definition a_on_page (md : mode) (d : Dms) (p : AP) : M (AP * result Page SyntaxError) :=
  let vs := bare (ap_rest p) in
  let! c := check_unsupported d vs in
  match c with
  | Err e => Val (p, Err e)
  | Ok _ =>
      let! ur := update_page_state (rs_new d) vs (ap_rs p) in
      let '(rs, u) := ur in
      match u with
      | Err e => Val (mkAP rs (ap_state p) (ap_rest p), Err e)
      | Ok _ =>
          let raster := build_raster rs in
          let! pr := a_page_loop md d 52 0 (mkAP rs (PsOn false) (ap_rest p)) raster in
          match pr with
          | (p, Err e) => Val (p, Err e)
          | (p, Ok raster) => Val (p, Ok (mkPage raster (rs_on_time (ap_rs p))))
          end
      end
  end.

Definition a_next (md : mode) (d : Dms) (p : AP)
  : M (option (result Page SyntaxError) * AP) :=
  match ap_state p with
  | PsOn _ => let! r := a_on_page md d p in Val (Some (snd r), fst r)
  | PsOff _ => Val (Some (Ok (mkPage (build_raster (ap_rs p)) (rs_off_time (ap_rs p)))),
                    mkAP (ap_rs p) (next_state (ap_state p)) (ap_rest p))
  | PsDone => Val (None, p)
  end.

Fixpoint a_take (md : mode) (d : Dms) (n : nat) (p : AP)
  : M (list (result Page SyntaxError)) :=
  match n with
  | O => Val []
  | S k =>
      let! r := a_next md d p in
      match r with
      | (None, _) => Val []
      | (Some x, p') => let! l := a_take md d k p' in Val (x :: l)
      end
  end.

(** ** Agreement *)

Definition MRel {A B} (R : A -> B -> Prop) (x : M A) (y : M B) : Prop :=
  match x, y with
  | Val a, Val b => R a b
  | Panic, Panic => True
  | Hang, Hang => True
  | _, _ => False
  end.

Lemma MRel_bind {A B A' B'} (R : A -> B -> Prop) (S : A' -> B' -> Prop) x y k l :
  MRel R x y -> (forall a b, R a b -> MRel S (k a) (l b)) -> MRel S (bind x k) (bind y l).
Proof. destruct x, y; cbn [MRel bind]; intros; try contradiction; auto. Qed.

Lemma MRel_refl {A} (R : A -> A -> Prop) (x : M A) : (forall a, R a a) -> MRel R x x.
Proof. destruct x; cbn; auto. Qed.

Lemma MRel_eq {A} (x y : M A) : x = y -> MRel eq x y.
Proof. intros ->. now apply MRel_refl. Qed.

Lemma check_unsupported_bare d vs :
  check_unsupported d vs = check_unsupported d (bare (map fst vs)).
Proof.
  induction vs as [|[x m] vs IH]; cbn [map fst bare check_unsupported]; auto.
  destruct x as [[v|e]| |]; cbn [try]; auto. destruct (value_tag v); auto.
  destruct (negb _); auto. destruct (_ =? _); auto.
Qed.

Lemma update_page_loop_bare ds vs : forall rs,
  update_page_loop ds vs rs = update_page_loop ds (bare (map fst vs)) rs.
Proof.
  induction vs as [|[x m] vs IH]; intros rs; cbn [map fst bare update_page_loop]; auto.
  destruct x as [[v|e]| |]; cbn [bind]; auto.
  destruct v; auto.
  all: destruct (set_background _ _ _) as [ctx [u|e]]; auto.
Qed.

Lemma update_page_state_bare ds vs rs :
  update_page_state ds vs rs = update_page_state ds (bare (map fst vs)) rs.
Proof. apply update_page_loop_bare. Qed.

Lemma render_graphics_loop_bare md d vs : forall ctx r,
  render_graphics_loop md d vs ctx r = render_graphics_loop md d (bare (map fst vs)) ctx r.
Proof.
  assert (HT : forall A B E (m : M (result A E)) (k l : A -> M (result B E)),
             (forall a, k a = l a) -> try m k = try m l).
  { intros A B E m k l H. destruct m as [[a|e]| |]; cbn [try]; auto. }
  induction vs as [|[x m] vs IH]; intros ctx r; cbn [map fst bare render_graphics_loop]; auto.
  apply HT. intros v.
  destruct v; auto;
    try apply IH;
    try (destruct (set_background _ _ _) as [c0 o]; apply HT; intros []; apply IH);
    try (destruct (set_foreground _ _ _) as [c0 o]; apply HT; intros []; apply IH).
  - destruct (set_foreground _ _ _) as [c0 o]; apply HT; intros []. apply HT. intros a. apply IH.
  - destruct p as [((x0 & y0) & gid)|]; apply HT; intros; apply HT; intros; apply IH.
Qed.

(** Agreement of iterator-based and list-based states. *)
Definition EndRel (e : RtrEnd) (a : AEnd) : Prop :=
  e_rs e = a_rs a /\ e_state e = a_state a /\ e_spans e = a_spans a /\ e_res e = a_res a
  /\ Reads (e_values e) (a_rest a).

Lemma rtr_rel md d ds po xs : forall m0 rs spans lb, Reads m0 xs ->
  MRel EndRel (rtr_loop md d ds po (items md m0) m0 rs spans lb) (a_rtr md d ds po xs rs spans lb).
Proof.
  induction xs as [|x xs IH]; intros m0 rs spans lb H; pose proof (Reads_items m0 _ H) as HR;
    cbn beta iota in HR.
  - rewrite HR. cbn. unfold EndRel. cbn. auto.
  - destruct HR as (m1 & H1 & _ & E). rewrite E. cbn [rtr_loop a_rtr].
    assert (HE : forall rs st sp r, MRel EndRel (Val (mkRtr rs st m1 sp r)) (Val (mkA rs st xs sp r))).
    { intros. cbn. unfold EndRel. cbn. auto. }
    apply (MRel_bind eq). { now apply MRel_refl. }
    intros a b <-. destruct a as [v|e]; [|apply HE].
    destruct v; try (apply IH; assumption); try apply HE.
    + destruct (set_foreground _ _ _) as [ctx [u|e]]; [now apply IH|apply HE].
    + destruct (is_charb _); [|apply HE].
      apply (MRel_bind eq). { now apply MRel_refl. } intros a b <-. now apply IH.
    + destruct j as [[]|]; try apply HE; now apply IH.
    + destruct j as [[]|]; try apply HE; (destruct (negb _); now apply IH).
    + match goal with |- context [if ?c then Val _ else _] => destruct c end; [apply HE|].
      apply (MRel_bind eq). { now apply MRel_refl. } intros a b <-. now apply IH.
    + destruct ((0 <? char_width d) && _); [apply HE|now apply IH].
    + apply (MRel_bind eq). { now apply MRel_refl. } intros a b <-. now apply IH.
    + apply (MRel_bind eq). { now apply MRel_refl. } intros a b <-. destruct a; apply HE.
Qed.

Definition PRel (d : Dms) (p : Pages) (a : AP) : Prop :=
  p_default p = rs_new d /\ p_rs p = ap_rs a /\ p_state p = ap_state a /\ Reads (p_values p) (ap_rest a).

Lemma text_rect_rel md d p a raster : PRel d p a ->
  MRel (fun x y => PRel d (fst x) (fst y) /\ snd x = snd y)
    (render_text_rectangle md d p raster) (a_text_rect md d a raster).
Proof.
  intros (HD & HR & HS & HV). unfold render_text_rectangle, a_text_rect. rewrite HD, HR.
  eapply MRel_bind. { apply rtr_rel. exact HV. }
  intros e b (E1 & E2 & E3 & E4 & E5). rewrite E4. destruct (a_res b).
  - rewrite E3. apply (MRel_bind eq). { now apply MRel_refl. }
    intros r r' <-. cbn. unfold PRel. cbn. splits; auto.
  - cbn. unfold PRel. cbn. splits; auto.
Qed.

Lemma page_loop_rel md d fuel : forall n p a raster, PRel d p a ->
  MRel (fun x y => PRel d (fst x) (fst y) /\ snd x = snd y)
    (page_loop md d fuel n p raster) (a_page_loop md d fuel n a raster).
Proof.
  induction fuel as [|f IH]; intros n p a raster HP; cbn [page_loop a_page_loop]; [exact I|].
  pose proof HP as (HD & HR & HS & HV). rewrite HS.
  destruct (ap_state a) as [[]|[]|]; try (cbn; now auto).
  apply (MRel_bind eq).
  { apply MRel_eq. unfold render_graphics.
    rewrite render_graphics_loop_bare, (Reads_map md _ _ HV), HR. reflexivity. }
  intros g g' <-. destruct g as [r|e]; [|cbn; auto].
  eapply MRel_bind. { apply text_rect_rel. exact HP. }
  intros [p1 r1] [p2 r2] [H1 H2]. cbn [fst snd] in *. subst r2. destruct r1 as [r1|e]; [|cbn; auto].
  destruct (_ <? _); [cbn; auto|]. now apply IH.
Qed.

Lemma on_page_rel md d p a : PRel d p a ->
  MRel (fun x y => PRel d (fst x) (fst y) /\ snd x = snd y)
    (render_on_page md d p) (a_on_page md d a).
Proof.
  intros HP. pose proof HP as (HD & HR & HS & HV). unfold render_on_page, a_on_page.
  apply (MRel_bind eq).
  { apply MRel_eq. rewrite check_unsupported_bare. now rewrite (Reads_map md _ _ HV). }
  intros c c' <-. destruct c as [c|e]; [|cbn; auto].
  apply (MRel_bind eq).
  { apply MRel_eq. rewrite update_page_state_bare, HD, HR. now rewrite (Reads_map md _ _ HV). }
  intros [rs u] ? <-. destruct u as [u|e].
  - eapply MRel_bind. { apply page_loop_rel. unfold PRel. cbn. splits; auto. }
    intros [p1 r1] [p2 r2] [H1 H2]. cbn [fst snd] in *. subst r2.
    destruct r1; cbn; auto. destruct H1 as (? & E & ? & ?). splits; auto.
    + unfold PRel. auto.
    + now rewrite E.
  - cbn. unfold PRel. cbn. splits; auto.
Qed.

Lemma next_rel md d p a : PRel d p a ->
  MRel (fun x y => fst x = fst y /\ PRel d (snd x) (snd y)) (pages_next md d p) (a_next md d a).
Proof.
  intros HP. pose proof HP as (HD & HR & HS & HV). unfold pages_next, a_next. rewrite HS.
  destruct (ap_state a) eqn:Es.
  - eapply MRel_bind. { apply on_page_rel. exact HP. }
    intros x y [H1 H2]. cbn. split; auto. now rewrite H2.
  - unfold render_off_page. cbn. rewrite HR. unfold PRel. cbn. splits; auto. rewrite HS; auto.
  - cbn. auto.
Qed.

Lemma take_rel md d n : forall p a, PRel d p a -> pages_take md d n p = a_take md d n a.
Proof.
  induction n as [|n IH]; intros p a HP; cbn [pages_take a_take]; auto.
  pose proof (next_rel md d p a HP) as HN.
  destruct (pages_next md d p) as [[o p']| |], (a_next md d a) as [[o' a']| |]; cbn in HN;
    try contradiction; cbn [bind]; auto.
  destruct HN as [<- HP']. destruct o; auto. now rewrite (IH p' a' HP').
Qed.

Definition a_start (d : Dms) (xs : Outcomes) : AP := mkAP (rs_new d) (PsOn true) xs.

Lemma start_rel d ms xs : Reads (ms_new ms) xs -> PRel d (pages_new d ms) (a_start d xs).
Proof. intros H. unfold PRel. cbn. splits; auto. Qed.

Lemma take_start md d n ms xs : Reads (ms_new ms) xs ->
  pages_take md d n (pages_new d ms) = a_take md d n (a_start d xs).
Proof. intros H. apply take_rel. now apply start_rel. Qed.
