(** Why a message is not rendered: what can be wrong with a tag, with the text of
    a text rectangle, and with a page, and which error names it; and what makes
    the renderer panic instead, in every build or in debug builds only.  Written from NTCIP 1203 and the documentation of
    src/dms/render.rs. *)

From Coq Require Import String.
From Verif Require Import Base Str Multi Color Raster Font Graphic Config Sign Render
  Spec_Multi Spec_Color Spec_Font Spec_Graphic Spec_Sign Spec_Render Spec_Layout Spec_Draw Spec_Page Spec_Safe.
Open Scope list_scope.

(** What stops a message: an error that is reported, a panic, or a number that
    does not fit its type.  Debug builds panic on that one; release builds wrap the
    number around, and report [e] for it if there is one. *)
Inductive Fault := Reported (e : SyntaxError) | Crash | Overflow (e : option SyntaxError).

(** Faults on which a debug build panics. *)
Definition panics (f : Fault) : Prop := forall e, f <> Reported e.

(** [F before x f]: [x], after the elements [before], has the fault [f].  No
    element of a list has a fault; the first one that has. *)
Definition NoFault {A} (F : list A -> A -> Fault -> Prop) (l : list A) : Prop :=
  forall a x b f, l = a ++ x :: b -> ~ F a x f.
Inductive First {A} (F : list A -> A -> Fault -> Prop) : list A -> Fault -> Prop :=
| First_at a x b f : NoFault F a -> F a x f -> First F (a ++ x :: b) f.

(** ** Tags *)

(** A colour that the sign cannot show. *)
Definition Unshown (d : Dms) (c : Color) : Prop := forall fg bg x, ~ Shows (colors d fg bg) c x.

Inductive BadBackground (d : Dms) : Value -> Prop :=
| Bb_cb c : Unshown d c -> BadBackground d (VColorBackground (Some c))
| Bb_pb c : Unshown d c -> BadBackground d (VPageBackground (Some c)).

Inductive BadForeground (d : Dms) : Value -> Prop :=
| Bf_cf c : Unshown d c -> BadForeground d (VColorForeground (Some c)).

(** Values that the sign cannot follow. *)
Inductive BadTag (d : Dms) : Value -> Prop :=
| Bt_jl j : j = JlOther \/ j = JlFull -> BadTag d (VJustificationLine (Some j))
| Bt_jp : BadTag d (VJustificationPage (Some JpOther))
| Bt_nl n : 0 < char_height_pixels (d_vms_cfg d) -> 0 < n -> BadTag d (VNewLine (Some n))
| Bt_sc n : 0 < char_width_pixels (d_vms_cfg d) -> 0 < n -> BadTag d (VSpacingCharacter n)
| Bt_hc c : 55296 <= c <= 57343 -> BadTag d (VHexadecimalCharacter c)
| Bt_tr r : ~ GoodTextRect d r -> BadTag d (VTextRectangle r).

(** The tag [v], after the values [before] of its text rectangle, cannot be drawn
    on [p].  Tags that are not rendered at all crash; edges past 16 bits overflow. *)
Inductive DrawFault (d : Dms) (c : Place) (before : list Value) (p : Raster rgb)
  : Value -> Fault -> Prop :=
| Df_color v : BadForeground d v -> DrawFault d c before p v (Reported (SUnsupportedTagValue (display v)))
| Df_graphic n pos e :
    (let '(x, y, id) := or_else pos (1, 1, None) in
     GraphicTag (d_graphics d) n x y id (graphic_colors d c before) p (Err e)) ->
    DrawFault d c before p (VGraphic n pos) (Reported e)
| Df_rect r clr e : RectTag r clr (graphic_colors d c before) p (Err e) ->
    measurable d r \/ Unshown d clr ->
    DrawFault d c before p (VColorRectangle r clr) (Reported e)
| Df_edges r clr : ~ measurable d r -> ~ Unshown d clr ->
    DrawFault d c before p (VColorRectangle r clr)
      (Overflow (Some (SUnsupportedTagValue (display (VColorRectangle r clr)))))
| Df_unknown v : ~ Renderable d v -> (forall r clr, v <> VColorRectangle r clr) -> DrawFault d c before p v Crash.

(** A value of a text rectangle that can be drawn. *)
Definition Drawable (d : Dms) (v : Value) : Prop := ~ BadForeground d v /\ Renderable d v.

(** The tag [v], after the values [before] of its text rectangle, cannot be
    followed; or it is a text or line too many to be numbered in 8 bits. *)
Inductive TagFault (d : Dms) (c : Place) (before : list Value) : Value -> Fault -> Prop :=
| Tg_bad v : BadTag d v -> Renderable d v -> TagFault d c before v (Reported (SUnsupportedTagValue (display v)))
| Tg_edges r : ~ measurable d r ->
    TagFault d c before (VTextRectangle r) (Overflow (Some (SUnsupportedTagValue (display (VTextRectangle r)))))
| Tg_text t : 255 <= rs_span (setting d c before) -> TagFault d c before (VText t) (Overflow None)
| Tg_char h : 255 <= rs_span (setting d c before) -> ~ BadTag d (VHexadecimalCharacter h) ->
    TagFault d c before (VHexadecimalCharacter h) (Overflow None)
| Tg_line n : 255 <= rs_line (setting d c before) -> ~ BadTag d (VNewLine n) ->
    TagFault d c before (VNewLine n) (Overflow None).

(** ** Text *)

(** The lines of the block of a span, as they are counted, are higher than its
    rectangle.  When every line has text of the line above before it, this is
    [TooTall]. *)
Definition TooHigh (d : Dms) (all : list Span) (s : Span) : Prop :=
  exists block ls h, Picked (SameBlock s) all block /\ Counted block ls /\ StackHeight d ls h
    /\ rheight (s_rect s) < h.

(** The font of a span is missing, or is another version than asked for. *)
Inductive FontFault (d : Dms) (s : Span) : Fault -> Prop :=
| Ff_missing : (forall f, In f (d_fonts d) -> f_number f <> rs_font (span_state s)) ->
    FontFault d s (Reported (SFontNotDefined (rs_font (span_state s))))
| Ff_version f k : FirstFont (d_fonts d) (rs_font (span_state s)) f ->
    rs_font_vid (span_state s) = Some k -> k <> font_version_id f -> FontFault d s (Reported SFontVersionID).

(** Some start of the text of [s], in the font [f], is 2^16 pixels or more wide. *)
Definition TooLong (s : Span) (f : Font) : Prop :=
  exists t t' cs, ShowsText s (t ++ t') /\ Spells f t cs
    /\ 65536 <= line_width (spacing_in s f) (map c_width cs).

(** A span cannot be set: its font, its length, or the first character that is
    missing. *)
Inductive SpanFault (d : Dms) (s : Span) : Fault -> Prop :=
| Sf_font f : FontFault d s f -> SpanFault d s f
| Sf_long f : FontOf (d_fonts d) s f -> TooLong s f -> SpanFault d s (Overflow None)
| Sf_char f t cs ch : FontOf (d_fonts d) s f -> ~ TooLong s f -> ShowsText s t -> FirstMissing f t cs ch ->
    SpanFault d s (Reported (SCharacterNotDefined ch)).

(** The texts [l] of a run, with the spaces between them, take [b] pixels before
    text number [n] and [a] pixels from there on. *)
Definition Sides (fonts : FontTable) (n : Z) (l : list Span) (b a : Z) : Prop :=
  RunOffset fonts n None l b /\ (l = [] /\ b + a = 0 \/ RunWidth fonts l (b + a)).

(** With the space before the next text [t] of the run, that is 2^16 pixels. *)
Definition GapOver (fonts : FontTable) (n : Z) (l : list Span) (t : Span) : Prop :=
  exists l' p g b a, l = l' ++ [p] /\ Gap fonts p t g /\ Sides fonts n l b a
    /\ 65536 <= (if s_number t <=? n then b else a) + g.

(** Text [t] of a run, after [l], cannot be set, or takes the texts on one side
    of text number [n] to 2^16 pixels. *)
Inductive RunFault (d : Dms) (n : Z) (l : list Span) (t : Span) : Fault -> Prop :=
| Rf_gap : GapOver (d_fonts d) n l t -> RunFault d n l t (Overflow None)
| Rf_span f : ~ GapOver (d_fonts d) n l t -> SpanFault d t f -> RunFault d n l t f
| Rf_side b a : Sides (d_fonts d) n (l ++ [t]) b a -> 65536 <= b \/ 65536 <= a -> RunFault d n l t (Overflow None).

(** The texts of the run of [s] can be set, and measure [w]; the lines of its
    block can be stacked, and measure [h]. *)
Definition RunSet (d : Dms) (all : list Span) (s : Span) (w : Z) : Prop :=
  (s_jl s = JlLeft \/ s_jl s = JlCenter \/ s_jl s = JlRight)
  /\ exists run, Picked (SameRun s) all run /\ NoFault (RunFault d (s_number s)) run /\ RunWidth (d_fonts d) run w.
Definition BlockSet (d : Dms) (all : list Span) (s : Span) (h : Z) : Prop :=
  (s_jp s = JpTop \/ s_jp s = JpMiddle \/ s_jp s = JpBottom)
  /\ exists block ls, Picked (SameBlock s) all block /\ NoFault (fun _ => FontFault d) block
       /\ Counted block ls /\ StackHeight d ls h.

Definition too_big (n : Z) : Fault := if n <? 65536 then Reported STextTooBig else Overflow None.

(** A pixel of the sign. *)
Definition SignPixel (d : Dms) (x y : Z) : Prop :=
  0 <= x < sign_width_pixels (d_vms_cfg d) /\ 0 <= y < sign_height_pixels (d_vms_cfg d).

(** A span cannot be placed: a text of its run cannot be set, else its run is too
    wide, else a text of its block has no font, else its block is too high, else
    its glyphs reach off the sign, which crashes, as do default justifications that
    cannot be placed.  The row of a span above the sign overflows; that is a crash
    in release builds too unless all its glyphs are on the sign from the row that
    has wrapped around (as when they are blank). *)
Inductive SpanFails (d : Dms) (all : list Span) (s : Span) : Fault -> Prop :=
| Sp_side : s_jl s = JlOther \/ s_jl s = JlFull -> SpanFails d all s Crash
| Sp_run run f : s_jl s = JlLeft \/ s_jl s = JlCenter \/ s_jl s = JlRight ->
    Picked (SameRun s) all run -> First (RunFault d (s_number s)) run f -> SpanFails d all s f
| Sp_wide w : RunSet d all s w -> rwidth (s_rect s) < w -> SpanFails d all s (too_big w)
| Sp_row w : RunSet d all s w -> w <= rwidth (s_rect s) -> s_jp s = JpOther -> SpanFails d all s Crash
| Sp_block w block f : RunSet d all s w -> w <= rwidth (s_rect s) ->
    s_jp s = JpTop \/ s_jp s = JpMiddle \/ s_jp s = JpBottom ->
    Picked (SameBlock s) all block -> First (fun _ => FontFault d) block f -> SpanFails d all s f
| Sp_high w h : RunSet d all s w -> w <= rwidth (s_rect s) -> BlockSet d all s h ->
    rheight (s_rect s) < h -> SpanFails d all s (too_big h)
| Sp_above w h x y f cs : RunSet d all s w -> w <= rwidth (s_rect s) -> BlockSet d all s h ->
    h <= rheight (s_rect s) -> AtX d all s x -> AtY d all s y -> y < 0 -> SetWith (d_fonts d) s f cs ->
    (forall px py, InkText (spacing_in s f) (f_height f) cs x (y + 65536) px py -> SignPixel d px py) ->
    SpanFails d all s (Overflow None)
| Sp_over w h x y f cs px py : RunSet d all s w -> w <= rwidth (s_rect s) -> BlockSet d all s h ->
    h <= rheight (s_rect s) -> AtX d all s x -> AtY d all s y -> y < 0 -> SetWith (d_fonts d) s f cs ->
    InkText (spacing_in s f) (f_height f) cs x (y + 65536) px py -> ~ SignPixel d px py -> SpanFails d all s Crash
| Sp_off w h x y f cs px py : RunSet d all s w -> w <= rwidth (s_rect s) -> BlockSet d all s h ->
    h <= rheight (s_rect s) -> AtX d all s x -> AtY d all s y -> 0 <= y -> SetWith (d_fonts d) s f cs ->
    InkText (spacing_in s f) (f_height f) cs x y px py -> ~ SignPixel d px py -> SpanFails d all s Crash.

(** The text of a text rectangle fails: its justifications are out of order, else
    with its first span that cannot be placed. *)
Inductive TextFails (d : Dms) (spans : list Span) : Fault -> Prop :=
| Tf_order : OutOfOrder spans -> TextFails d spans (Reported STagConflict)
| Tf_span f : ~ OutOfOrder spans -> First (fun _ => SpanFails d spans) spans f -> TextFails d spans f.

(** Anything at all wrong with the spans of a text rectangle: their justifications
    are out of order, a font or a character is missing, or they do not fit. *)
Inductive TextFault (d : Dms) (spans : list Span) : SyntaxError -> Prop :=
| Tx_order : OutOfOrder spans -> TextFault d spans STagConflict
| Tx_font s : In s spans ->
    (forall f, In f (d_fonts d) -> f_number f <> rs_font (span_state s)) ->
    TextFault d spans (SFontNotDefined (rs_font (span_state s)))
| Tx_version s f k : In s spans -> FirstFont (d_fonts d) (rs_font (span_state s)) f ->
    rs_font_vid (span_state s) = Some k -> k <> font_version_id f ->
    TextFault d spans SFontVersionID
| Tx_char s f t cs ch : In s spans -> FontOf (d_fonts d) s f -> ShowsText s t ->
    FirstMissing f t cs ch -> TextFault d spans (SCharacterNotDefined ch)
| Tx_wide s : In s spans -> TooWide d spans s -> TextFault d spans STextTooBig
| Tx_tall s : In s spans -> TooHigh d spans s -> TextFault d spans STextTooBig.

(** ** Text rectangles *)

(** A text rectangle that is drawn: nothing is wrong with its values and text. *)
Definition Accepted (d : Dms) (c : Place) (vs : list Value) (p q : Raster rgb) : Prop :=
  TextsShown d c vs p q
  /\ (forall u, In u vs -> Drawable d u /\ ~ BadTag d u)
  /\ NoFault (TagFault d c) vs
  /\ (forall e, ~ TextFault d (texts d c [] vs) e) /\ (forall f, ~ TextFails d (texts d c [] vs) f).

(** The text rectangle with values [vs], followed on the page by [after], fails
    with a fault: the first tag that cannot be drawn, else the first tag that
    cannot be followed (that of the next text rectangle included), else its text,
    else that it is the 51st of the page. *)
Inductive RectFails (d : Dms) (c : Place) (vs after : list Value) (p : Raster rgb)
  : Fault -> Prop :=
| Rx_draw a v b q f : vs = a ++ v :: b -> Graphics d c [] a p q ->
    (forall u, In u a -> Drawable d u) -> DrawFault d c a q v f ->
    RectFails d c vs after p f
| Rx_tag q f : Graphics d c [] vs p q -> (forall u, In u vs -> Drawable d u) ->
    First (TagFault d c) (vs ++ firstn 1 after) f -> RectFails d c vs after p f
| Rx_text q f : Graphics d c [] vs p q -> (forall u, In u vs -> Drawable d u) ->
    NoFault (TagFault d c) (vs ++ firstn 1 after) ->
    TextFails d (texts d c [] vs) f -> RectFails d c vs after p f
| Rx_many q q' : Graphics d c [] vs p q -> Accepted d c vs q q' ->
    NoFault (TagFault d c) (vs ++ firstn 1 after) -> text_rects (pl_upto c) = 50%nat ->
    RectFails d c vs after p (Reported (SOther (lit "Too many text rectangles"))).

(** ** Pages *)

(** The first text rectangle that fails, when those before it are drawn. *)
Inductive Fails (d : Dms) : Place -> list Value -> Raster rgb -> Fault -> Prop :=
| Fl_here c vs after p f : no_text_rect vs ->
    after = [] \/ (exists r rest, after = VTextRectangle r :: rest) ->
    RectFails d c vs after p f -> Fails d c (vs ++ after) p f
| Fl_next c vs r rest p q q' f : no_text_rect vs ->
    Graphics d c [] vs p q -> Accepted d c vs q q' -> (text_rects (pl_upto c) < 50)%nat ->
    GoodTextRect d r -> measurable d r ->
    Fails d (mkPlace (pl_earlier c) (pl_page c) (pl_upto c ++ vs ++ [VTextRectangle r])
               (rect_on (sign_width_pixels (d_vms_cfg d)) (sign_height_pixels (d_vms_cfg d)) r))
      rest q' f ->
    Fails d c (vs ++ VTextRectangle r :: rest) p f.

(** The page [pg] after the pages [before] fails: the first background that cannot
    be shown, else its first text rectangle that fails. *)
Inductive PageFails (d : Dms) (before pg : list Value) : Fault -> Prop :=
| Pf_background a v b : pg = a ++ v :: b -> (forall u, In u a -> ~ BadBackground d u) ->
    BadBackground d v -> PageFails d before pg (Reported (SUnsupportedTagValue (display v)))
| Pf_rect f : (forall u, In u pg -> ~ BadBackground d u) ->
    Fails d (mkPlace before pg [] (sign_rect d)) pg
      (with_color (sign_width_pixels (d_vms_cfg d)) (sign_height_pixels (d_vms_cfg d))
         (page_background d before pg)) f ->
    PageFails d before pg f.

(** The page [pg] after the pages [before] is drawn. *)
Definition PageAccepted (d : Dms) (before pg : list Value) (q : Raster rgb) : Prop :=
  Forall (Supports d) pg /\ (forall u, In u pg -> ~ BadBackground d u) /\ (text_rects pg <= 49)%nat
  /\ (forall r, In (VTextRectangle r) pg -> measurable d r)
  /\ PageShown d (Accepted d) before pg q.

(** What the pieces of a message say up to its end or, when [cut], up to a piece
    whose reading panics. *)
Definition Reading (ms : str) (rs : list (result Value SyntaxError)) (cut : bool) : Prop :=
  exists ts more, Tokens ms (ts ++ more) /\ Forall2 TokenDenotes ts rs
    /\ if cut then exists t us, more = t :: us /\ PanicToken t else more = [].

(** What is left of a message after the pages [before] fails on its first page: at
    a malformed piece or a tag the sign does not list, at the piece that cuts the
    reading, or with the values of a whole page. *)
Inductive RestFails (d : Dms) (before : list Value) (rest : list (result Value SyntaxError)) (cut : bool)
  : Fault -> Prop :=
| Rs_refused vs x t e : rest = map Ok vs ++ x :: t -> no_page_break vs -> Forall (Supports d) vs ->
    Refused d x e -> RestFails d before rest cut (Reported e)
| Rs_cut vs : cut = true -> rest = map Ok vs -> no_page_break vs -> Forall (Supports d) vs ->
    RestFails d before rest cut Crash
| Rs_page pg f : FirstPage rest pg -> (cut = true -> rest <> map Ok pg) -> Forall (Supports d) pg ->
    (forall r, rest = map Ok pg ++ Ok VNewPage :: r -> Supports d VNewPage) ->
    PageFails d before pg f -> RestFails d before rest cut f.

(** Pages each closed by a [np] tag. *)
Definition closed (pgs : list (list Value)) : list Value :=
  List.concat (map (fun pg => pg ++ [VNewPage]) pgs).

(** The message shows the pages [ps] and then stops, with a fault. *)
Definition MessageStops (d : Dms) (ms : str) (ps : list Page) (f : Fault) : Prop :=
  exists pgs rest cut, Reading ms (map Ok (closed pgs) ++ rest) cut
    /\ Forall no_page_break pgs /\ Forall (Supports d) (closed pgs)
    /\ EachPage d (PageAccepted d) [] pgs ps
    /\ RestFails d (List.concat pgs) rest cut f.
Definition MessageFails (d : Dms) (ms : str) (ps : list Page) (e : SyntaxError) : Prop :=
  MessageStops d ms ps (Reported e).
Definition MessagePanics (d : Dms) (ms : str) (ps : list Page) : Prop :=
  exists f, panics f /\ MessageStops d ms ps f.

(** Which errors and panics stop a build of each kind, after the pages [ps]. *)
Definition FailsIn (md : mode) (d : Dms) (ms : str) (ps : list Page) (e : SyntaxError) : Prop :=
  MessageFails d ms ps e \/ md = Release /\ MessageStops d ms ps (Overflow (Some e)).
Definition PanicsIn (md : mode) (d : Dms) (ms : str) (ps : list Page) : Prop :=
  match md with
  | Debug => MessagePanics d ms ps
  | Release => MessageStops d ms ps Crash
  end.

(** Release builds go on with a number that has wrapped around. *)
Definition Wraps (d : Dms) (ms : str) : Prop := exists ps, MessageStops d ms ps (Overflow None).

(** The message shows the pages [ps], with nothing wrong. *)
Definition MessageAccepted (d : Dms) (ms : str) (ps : list Page) : Prop :=
  exists vs pgs, Meaning ms (map Ok vs) /\ SplitPages vs pgs /\ Forall (Supports d) vs
    /\ EachPage d (PageAccepted d) [] pgs ps.
