(** What a page shows: which settings are in force at each text and graphic, and
    in which order they are drawn.  Written from NTCIP 1203 and the documentation
    of src/dms/render.rs; the records of the model are used as data. *)

From Coq Require Import String.
From Verif Require Import Base Str Multi Color Raster Font Graphic Config Sign Render
  Spec_Multi Spec_Color Spec_Font Spec_Graphic Spec_Sign Spec_Render Spec_Layout Spec_Draw.
Open Scope list_scope.

(** ** Settings in force *)

(** A setting has the value given by the last tag that sets it ([f] reads a tag),
    else its default. *)
Fixpoint in_force {A} (f : Value -> option A) (dflt : A) (vs : list Value) : A :=
  match vs with
  | [] => dflt
  | v :: r => in_force f (match f v with Some x => x | None => dflt end) r
  end.

Definition default_fg (d : Dms) : Color := color_of_rgb (foreground_default_rgb d).
Definition default_bg (d : Dms) : Color := color_of_rgb (background_default_rgb d).
Definition or_else {A} (o : option A) (dflt : A) : A := match o with Some x => x | None => dflt end.

Definition says_fg (d : Dms) (v : Value) : option Color :=
  match v with VColorForeground o => Some (or_else o (default_fg d)) | _ => None end.
Definition says_bg (d : Dms) (v : Value) : option Color :=
  match v with
  | VColorBackground o | VPageBackground o => Some (or_else o (default_bg d))
  | _ => None
  end.
(** [pb] sets the background of a page, not that of later graphics. *)
Definition says_cb (d : Dms) (v : Value) : option Color :=
  match v with VColorBackground o => Some (or_else o (default_bg d)) | _ => None end.
Definition says_font (d : Dms) (v : Value) : option (Z * option Z) :=
  match v with VFont o => Some (or_else o (default_font (d_multi_cfg d), None)) | _ => None end.
Definition says_jl (d : Dms) (v : Value) : option JustificationLine :=
  match v with
  | VJustificationLine o => Some (or_else o (default_justification_line (d_multi_cfg d)))
  | _ => None
  end.
Definition says_jp (d : Dms) (v : Value) : option JustificationPage :=
  match v with
  | VJustificationPage o => Some (or_else o (default_justification_page (d_multi_cfg d)))
  | _ => None
  end.
Definition says_spacing (v : Value) : option (option Z) :=
  match v with
  | VSpacingCharacter n => Some (Some n)
  | VSpacingCharacterEnd => Some None
  | _ => None
  end.
Definition says_lead (v : Value) : option (option Z) :=
  match v with VNewLine o => Some o | _ => None end.
Definition says_times (d : Dms) (v : Value) : option (Z * Z) :=
  match v with
  | VPageTime on off => Some (or_else on (default_page_on_time (d_multi_cfg d)),
                              or_else off (default_page_off_time (d_multi_cfg d)))
  | _ => None
  end.

Definition fg_of (d : Dms) : list Value -> Color := in_force (says_fg d) (default_fg d).
Definition bg_of (d : Dms) : list Value -> Color := in_force (says_bg d) (default_bg d).
Definition font_of (d : Dms) : list Value -> Z * option Z :=
  in_force (says_font d) (default_font (d_multi_cfg d), None).
Definition jl_of (d : Dms) : list Value -> JustificationLine :=
  in_force (says_jl d) (default_justification_line (d_multi_cfg d)).
Definition jp_of (d : Dms) : list Value -> JustificationPage :=
  in_force (says_jp d) (default_justification_page (d_multi_cfg d)).
Definition times_of (d : Dms) : list Value -> Z * Z :=
  in_force (says_times d) (default_page_on_time (d_multi_cfg d), default_page_off_time (d_multi_cfg d)).

(** ** Lines and spans *)

(** A [jp] tag after [past] that changes the page justification. *)
Definition changes_jp (d : Dms) (past : list Value) (v : Value) : bool :=
  match says_jp d v with Some j => negb (jp_eqb j (jp_of d past)) | None => false end.

(** Lines of a text rectangle are counted from 0, again after each change of
    page justification. *)
Fixpoint line_at (d : Dms) (past : list Value) (n : Z) (vs : list Value) : Z :=
  match vs with
  | [] => n
  | v :: r =>
      line_at d (past ++ [v])
        (match v with VNewLine _ => n + 1 | _ => if changes_jp d past v then 0 else n end) r
  end.

(** Texts of a line are counted from 0, again after each [jl] tag and each change
    of page justification. *)
Fixpoint text_at (d : Dms) (past : list Value) (n : Z) (vs : list Value) : Z :=
  match vs with
  | [] => n
  | v :: r =>
      text_at d (past ++ [v])
        (match v with
         | VText _ | VHexadecimalCharacter _ => n + 1
         | VNewLine _ | VJustificationLine _ => 0
         | _ => if changes_jp d past v then 0 else n
         end) r
  end.

(** No text since the last [nl] of [vs]. *)
Definition blank_line : list Value -> bool :=
  in_force (fun v => match v with
                     | VText _ | VHexadecimalCharacter _ => Some false
                     | VNewLine _ => Some true
                     | _ => None
                     end) true.

(** ** State at a point of a page *)

(** A point of a message: the values of the [earlier] pages, all values of this
    [page], those of it before the current text rectangle, and those from there
    up to the point.  [pl_rect] is the text rectangle. *)
Record Place := mkPlace {
  pl_earlier : list Value; pl_page : list Value; pl_upto : list Value;
  pl_rect : Rectangle }.

Definition colors (d : Dms) (fg bg : Color) : ColorCtx :=
  mkCtx (cfg_color_scheme (d_multi_cfg d)) (foreground_default_rgb d) fg (background_default_rgb d) bg.

(** The background of a page is set by the last [cb] or [pb] tag anywhere on it. *)
Definition page_colors (d : Dms) (c : Place) (vs : list Value) : ColorCtx :=
  colors d (fg_of d ((pl_earlier c ++ pl_upto c) ++ vs)) (bg_of d (pl_earlier c ++ pl_page c)).

Definition setting (d : Dms) (c : Place) (vs : list Value) : RenderState :=
  let past := pl_earlier c ++ pl_upto c in
  let times := times_of d (pl_earlier c ++ pl_page c) in
  mkRS (page_colors d c vs) (fst times) (snd times) (pl_rect c)
    (jp_of d (past ++ vs)) (jl_of d (past ++ vs))
    (fst (font_of d (past ++ vs))) (snd (font_of d (past ++ vs)))
    (in_force says_lead None (pl_upto c ++ vs)) (in_force says_spacing None (past ++ vs))
    (line_at d past 0 vs) (text_at d past 0 vs).

(** Graphics see in addition the [cb] tags since the current text rectangle. *)
Definition graphic_colors (d : Dms) (c : Place) (vs : list Value) : ColorCtx :=
  colors d (fg_of d ((pl_earlier c ++ pl_upto c) ++ vs))
    (in_force (says_cb d) (bg_of d (pl_earlier c ++ pl_page c)) vs).

(** ** Texts of a text rectangle *)

(** The spans of the values [vs] that follow [done] in the text rectangle.  An
    empty line has an empty span. *)
Fixpoint texts (d : Dms) (c : Place) (done vs : list Value) : list Span :=
  match vs with
  | [] => []
  | v :: r =>
      match v with
      | VText t => [SpText (setting d c done) t]
      | VHexadecimalCharacter h => [SpHex (setting d c done) (h :: repeat 0 (Z.to_nat (4 - utf8_len h)))]
      | VNewLine _ => if blank_line done then [SpText (setting d c done) []] else []
      | _ => []
      end ++ texts d c (done ++ [v]) r
  end.

(** ** Drawing a page *)

(** The graphic and colour rectangle tags of [vs], drawn in order. *)
Inductive Graphics (d : Dms) (c : Place) : list Value -> list Value -> Raster rgb -> Raster rgb -> Prop :=
| Gr_nil done p : Graphics d c done [] p p
| Gr_graphic done n pos r p q q' :
    (let '(x, y, id) := or_else pos (1, 1, None) in
     GraphicTag (d_graphics d) n x y id (graphic_colors d c done) p (Ok q)) ->
    Graphics d c (done ++ [VGraphic n pos]) r q q' ->
    Graphics d c done (VGraphic n pos :: r) p q'
| Gr_rect done rect clr r p q q' :
    RectTag rect clr (graphic_colors d c done) p (Ok q) ->
    Graphics d c (done ++ [VColorRectangle rect clr]) r q q' ->
    Graphics d c done (VColorRectangle rect clr :: r) p q'
| Gr_other done v r p q :
    (forall n pos, v <> VGraphic n pos) -> (forall rect clr, v <> VColorRectangle rect clr) ->
    Graphics d c (done ++ [v]) r p q ->
    Graphics d c done (v :: r) p q.

(** The spans of a text rectangle are in order of justification; a pixel that
    they change is drawn by one of them, in its foreground colour, and in the
    rectangle (when rounding to character cells and its glyphs allow it); and they are
    drawn at their places, which are those of the layout when it is regular. *)
Record TextShown (d : Dms) (spans : list Span) (r : Rectangle) (p q : Raster rgb) : Prop := {
  ts_size : r_width q = r_width p /\ r_height q = r_height p;
  ts_fields : Forall span_fields spans;
  ts_font : forall s, In s spans ->
      rs_font (span_state s) <> 0 \/ rs_font (span_state s) = default_font (d_multi_cfg d);
  ts_order : ~ OutOfOrder spans;
  ts_lit : forall x y, r_pixel q x y = r_pixel p x y
      \/ exists s f cs a b, In s spans /\ SetWith (d_fonts d) s f cs
           /\ InkText (spacing_in s f) (f_height f) cs a b x y
           /\ r_pixel q x y = foreground_rgb (rs_ctx (span_state s))
           /\ (KeepsCells d s -> SoundFont d (rs_font (span_state s)) -> InRect r x y);
  ts_at : DrawnAt d spans spans p q;
  ts_drawn : Numbered spans -> Stacked spans -> Drawn d spans spans p q }.

Definition no_text_rect (vs : list Value) : Prop := forall r, ~ In (VTextRectangle r) vs.

Definition TextsShown (d : Dms) (c : Place) (vs : list Value) (p q : Raster rgb) : Prop :=
  TextShown d (texts d c [] vs) (pl_rect c) p q.

(** The text rectangles of a page are drawn one after the other, in each the
    graphics before the text.  [T] says what drawing the text does. *)
Inductive Rendered (d : Dms) (T : Place -> list Value -> Raster rgb -> Raster rgb -> Prop)
  : Place -> list Value -> Raster rgb -> Raster rgb -> Prop :=
| Rd_last c vs p q q' : no_text_rect vs ->
    Graphics d c [] vs p q -> T c vs q q' -> Rendered d T c vs p q'
| Rd_rect c vs r rest p q q' q'' : no_text_rect vs ->
    Graphics d c [] vs p q -> T c vs q q' ->
    GoodTextRect d r ->
    Rendered d T (mkPlace (pl_earlier c) (pl_page c) (pl_upto c ++ vs ++ [VTextRectangle r])
               (rect_on (sign_width_pixels (d_vms_cfg d)) (sign_height_pixels (d_vms_cfg d)) r))
      rest q' q'' ->
    Rendered d T c (vs ++ VTextRectangle r :: rest) p q''.

Definition sign_rect (d : Dms) : Rectangle :=
  mkRect 1 1 (sign_width_pixels (d_vms_cfg d)) (sign_height_pixels (d_vms_cfg d)).

Definition page_background (d : Dms) (before pg : list Value) : rgb :=
  background_rgb (colors d (default_fg d) (bg_of d (before ++ pg))).

(** The raster of the page [pg] after the pages [before]: drawn on the page
    background. *)
Definition PageShown (d : Dms) (T : Place -> list Value -> Raster rgb -> Raster rgb -> Prop)
    (before pg : list Value) (q : Raster rgb) : Prop :=
  Rendered d T (mkPlace before pg [] (sign_rect d)) pg
    (with_color (sign_width_pixels (d_vms_cfg d)) (sign_height_pixels (d_vms_cfg d))
       (page_background d before pg)) q.

(** ** The pages of a message *)

(** The last text rectangle of a page.  Blank pages have its size, not that of the
    sign (see [c37_refuted]). *)
Definition last_rect (d : Dms) (pg : list Value) : Rectangle :=
  in_force (fun v => match v with
                     | VTextRectangle r =>
                         Some (rect_on (sign_width_pixels (d_vms_cfg d)) (sign_height_pixels (d_vms_cfg d)) r)
                     | _ => None
                     end) (sign_rect d) pg.

(** Each page of [pgs], after the values [before], has a page with raster [q]
    such that [F before pg q], and when the off time in force is above 0 a blank
    page after it. *)
Inductive EachPage (d : Dms) (F : list Value -> list Value -> Raster rgb -> Prop)
  : list Value -> list (list Value) -> list Page -> Prop :=
| Ep_end before : EachPage d F before [] []
| Ep_on before pg pgs P l :
    snd (times_of d (before ++ pg)) <= 0 -> pg_duration P = fst (times_of d (before ++ pg)) ->
    F before pg (pg_raster P) ->
    EachPage d F (before ++ pg) pgs l ->
    EachPage d F before (pg :: pgs) (P :: l)
| Ep_on_off before pg pgs P Q l :
    0 < snd (times_of d (before ++ pg)) -> pg_duration P = fst (times_of d (before ++ pg)) ->
    F before pg (pg_raster P) ->
    pg_duration Q = snd (times_of d (before ++ pg)) ->
    r_width (pg_raster Q) = rwidth (last_rect d pg) -> r_height (pg_raster Q) = rheight (last_rect d pg) ->
    Uniform (pg_raster Q) (page_background d before pg) ->
    EachPage d F (before ++ pg) pgs l ->
    EachPage d F before (pg :: pgs) (P :: Q :: l).

(** The pages [ps] of the message [ms] are as [F] says. *)
Definition PagesShow (d : Dms) (F : list Value -> list Value -> Raster rgb -> Prop)
    (ms : str) (ps : list Page) : Prop :=
  exists vs pgs, Meaning ms (map Ok vs) /\ SplitPages vs pgs /\ EachPage d F [] pgs ps.

(** A sign whose default font has sound glyphs. *)
Definition Usable (d : Dms) : Prop := SoundFont d (default_font (d_multi_cfg d)).

(** ** Blank messages (C47) *)

(** Whitespace characters draw no pixels. *)
Definition BlankSpaces (d : Dms) : Prop :=
  forall f c, In f (d_fonts d) -> In c (f_characters f) -> space (c_number c) ->
    forall row col, ~ GlyphInks (f_height f) c row col.

(** ** Regular layout *)

(** No text since the last [nl] or change of page justification. *)
Fixpoint fresh_at (d : Dms) (past : list Value) (b : bool) (vs : list Value) : bool :=
  match vs with
  | [] => b
  | v :: r =>
      fresh_at d (past ++ [v])
        (match v with
         | VText _ | VHexadecimalCharacter _ => false
         | VNewLine _ => true
         | _ => if changes_jp d past v then true else b
         end) r
  end.

Definition has_text : list Value -> bool :=
  existsb (fun v => match v with VText _ | VHexadecimalCharacter _ | VNewLine _ => true | _ => false end).

(** The tags of a text rectangle after the values [past] keep the layout regular:
    after text on a line, [jl] moves to the right; after text in the rectangle, a
    [jp] that changes the page justification moves down, and has text after it
    before the next [nl] (unless the line was blank before it). *)
Definition Orderly (d : Dms) (past vs : list Value) : Prop :=
  forall a v b, vs = a ++ v :: b ->
    match v with
    | VJustificationLine _ =>
        fresh_at d past true a = true
        \/ jl_rank (jl_of d (past ++ a)) < jl_rank (jl_of d (past ++ a ++ [v]))
    | VJustificationPage _ =>
        has_text a = false \/ changes_jp d (past ++ a) v = false
        \/ jp_rank (jp_of d (past ++ a)) < jp_rank (jp_of d (past ++ a ++ [v]))
    | VNewLine _ => blank_line a = true \/ fresh_at d past true a = false
    | _ => True
    end.

(** ** What a page covers (C52) *)

(** Fonts are a whole number of character cells high (any height on a full
    matrix). *)
Definition FontsInCells (d : Dms) : Prop :=
  forall f, In f (d_fonts d) -> used_font f \/ default_font (d_multi_cfg d) = 0 -> on_boundary (char_height_pixels (d_vms_cfg d)) (f_height f).

Definition shows_text (v : Value) : Prop :=
  match v with VText _ | VHexadecimalCharacter _ => True | _ => False end.

(** A text rectangle of the page [pg] that holds text. *)
Inductive TextIn (d : Dms) (pg : list Value) : Rectangle -> Prop :=
| Ti_sign a v b : pg = a ++ v :: b -> no_text_rect a -> shows_text v -> TextIn d pg (sign_rect d)
| Ti_rect a r b v c : pg = a ++ VTextRectangle r :: b ++ v :: c -> no_text_rect b -> shows_text v ->
    TextIn d pg (rect_on (sign_width_pixels (d_vms_cfg d)) (sign_height_pixels (d_vms_cfg d)) r).

(** Pixel [x, y] is in a graphic, colour rectangle or text rectangle. *)
Inductive Covered (d : Dms) (pg : list Value) (x y : Z) : Prop :=
| Cv_graphic n pos g : In (VGraphic n pos) pg -> FirstGraphic (d_graphics d) n g ->
    (let '(gx, gy, _) := or_else pos (1, 1, None) in
     gx - 1 <= x < gx - 1 + g_width g /\ gy - 1 <= y < gy - 1 + g_height g) ->
    Covered d pg x y
| Cv_color r clr : In (VColorRectangle r clr) pg ->
    Covers (sign_width_pixels (d_vms_cfg d)) (sign_height_pixels (d_vms_cfg d)) r x y ->
    Covered d pg x y
| Cv_text r : TextIn d pg r -> InRect r x y -> Covered d pg x y.
