(** How text is laid out in a text rectangle, written from NTCIP 1203 and the
    documentation of src/dms/render.rs.  A [Span] is a piece of text with the
    settings in force where it was written; spans come in message order. *)

From Coq Require Import String.
From Verif Require Import Base Str Multi Color Raster Font Graphic Config Sign Render
  Spec_Multi Spec_Font Spec_Sign Spec_Render.
Open Scope list_scope.

(** ** Spans *)

Definition s_rect (s : Span) : Rectangle := rs_rect (span_state s).
Definition s_jp (s : Span) : JustificationPage := rs_jp (span_state s).
Definition s_jl (s : Span) : JustificationLine := rs_jl (span_state s).
Definition s_line (s : Span) : Z := rs_line (span_state s).
Definition s_number (s : Span) : Z := rs_span (span_state s).

(** The text a span shows: a hexadecimal character is one character followed by
    padding, and character 0 shows nothing. *)
Inductive ShowsText : Span -> str -> Prop :=
| Sh_text st t : ShowsText (SpText st t) t
| Sh_hex st c k : c <> 0 -> ShowsText (SpHex st (c :: repeat 0 k)) [c]
| Sh_nul st t : ShowsText (SpHex st (0 :: t)) [].

(** Settings hold values of their Rust types; the text has no NUL. *)
Definition span_fields (s : Span) : Prop :=
  (forall n, rs_char_spacing (span_state s) = Some n -> u8 n)
  /\ (forall n, rs_line_spacing (span_state s) = Some n -> u8 n)
  /\ u8 (s_line s) /\ u8 (s_number s) /\ exists t, ShowsText s t /\ ~ In 0 t.

(** The font in force: the first of the table with its number, and with its
    version identifier if the message gives one. *)
Definition FontOf (fonts : FontTable) (s : Span) (f : Font) : Prop :=
  FirstFont fonts (rs_font (span_state s)) f
  /\ forall v, rs_font_vid (span_state s) = Some v -> v = font_version_id f.

(** Character spacing: from [sc], else from the font. *)
Definition spacing_in (s : Span) (f : Font) : Z :=
  match rs_char_spacing (span_state s) with Some n => n | None => f_char_spacing f end.

(** The span is set with font [f] in the characters [cs]. *)
Definition SetWith (fonts : FontTable) (s : Span) (f : Font) (cs : list CharacterEntry) : Prop :=
  FontOf fonts s f /\ exists t, ShowsText s t /\ Spells f t cs.

Definition SpanWidth (fonts : FontTable) (s : Span) (w : Z) : Prop :=
  exists f cs, SetWith fonts s f cs /\ w = line_width (spacing_in s f) (map c_width cs).

(** Every span has its font and characters. *)
Definition AllSet (fonts : FontTable) (spans : list Span) : Prop :=
  forall s, In s spans -> exists f cs, SetWith fonts s f cs.

(** ** Order of justification (C46) *)

Definition jp_rank (j : JustificationPage) : Z :=
  match j with JpOther => 1 | JpTop => 2 | JpMiddle => 3 | JpBottom => 4 end.
Definition jl_rank (j : JustificationLine) : Z :=
  match j with JlOther => 1 | JlLeft => 2 | JlCenter => 3 | JlRight => 4 | JlFull => 5 end.

(** Going from [s] to [t], justification goes backwards. *)
Definition Backwards (s t : Span) : Prop :=
  jp_rank (s_jp t) < jp_rank (s_jp s)
  \/ (s_jp t = s_jp s /\ s_line t = s_line s /\ jl_rank (s_jl t) < jl_rank (s_jl s)).

Definition OutOfOrder (spans : list Span) : Prop :=
  exists a s t b, spans = a ++ s :: t :: b /\ Backwards s t.

(** ** Runs and blocks *)

(** [Picked P l g]: [g] are the elements of [l] with [P], in order. *)
Inductive Picked {A} (P : A -> Prop) : list A -> list A -> Prop :=
| Pk_nil : Picked P [] []
| Pk_in x l g : P x -> Picked P l g -> Picked P (x :: l) (x :: g)
| Pk_out x l g : ~ P x -> Picked P l g -> Picked P (x :: l) g.

(** Spans of one run stand beside each other; spans of one block are stacked. *)
Definition SameRun (s t : Span) : Prop := s_jp t = s_jp s /\ s_line t = s_line s /\ s_jl t = s_jl s.
Definition SameBlock (s t : Span) : Prop := s_jp t = s_jp s.

(** Average of two spacings, rounded up. *)
Definition half_up (n : Z) : Z := (n + 1) / 2.

(** Space between [s] and the next span [t] of its run: the spacing asked for by
    [t], else the average of the two spacings. *)
Inductive Gap (fonts : FontTable) (s t : Span) : Z -> Prop :=
| Gap_set n : rs_char_spacing (span_state t) = Some n -> Gap fonts s t n
| Gap_avg f g : rs_char_spacing (span_state t) = None ->
    FontOf fonts s f -> FontOf fonts t g ->
    Gap fonts s t (half_up (spacing_in s f + spacing_in t g)).

(** Width of a run. *)
Inductive RunWidth (fonts : FontTable) : list Span -> Z -> Prop :=
| Rw_one s w : SpanWidth fonts s w -> RunWidth fonts [s] w
| Rw_cons s t r w g v : SpanWidth fonts s w -> Gap fonts s t g ->
    RunWidth fonts (t :: r) v -> RunWidth fonts (s :: t :: r) (w + g + v).

(** Distance from the start of a run to span [s] of it, after the spans [pre]. *)
Inductive Before (fonts : FontTable) : list Span -> Span -> Z -> Prop :=
| Bf_first s : Before fonts [] s 0
| Bf_after pre p s w g : RunWidth fonts (pre ++ [p]) w -> Gap fonts p s g ->
    Before fonts (pre ++ [p]) s (w + g).

(** Round down to a character cell of size [c] (0 on a matrix without cells). *)
Definition cell (c n : Z) : Z := if c <=? 1 then n else c * (n / c).

(** Left edge of a span of width-[w] rectangle starting at column [left]
    (counted from 0), where its run is [total] wide and it starts [b] into it. *)
Definition place_x (j : JustificationLine) (cw left w total b x : Z) : Prop :=
  match j with
  | JlLeft => x = left + b
  | JlCenter => x = cell cw (left + (w - total) / 2 + b)
  | JlRight => x = left + w - total + b
  | _ => False
  end.

Definition PlacedX (d : Dms) (all : list Span) (s : Span) (x : Z) : Prop :=
  exists pre post b total,
    Picked (SameRun s) all (pre ++ s :: post)
    /\ Before (d_fonts d) pre s b /\ RunWidth (d_fonts d) (pre ++ s :: post) total
    /\ total <= rwidth (s_rect s)
    /\ place_x (s_jl s) (char_width_pixels (d_vms_cfg d)) (rx (s_rect s) - 1)
         (rwidth (s_rect s)) total b x.

(** ** Lines *)

(** The spans of one line of a block. *)
Definition OnLine (s : Span) (n : Z) (t : Span) : Prop := SameBlock s t /\ s_line t = n.

(** [m] is the greatest of the values [R] gives to the elements of [l]. *)
Definition Greatest {A} (R : A -> Z -> Prop) (l : list A) (m : Z) : Prop :=
  (exists x, In x l /\ R x m) /\ forall x v, In x l -> R x v -> v <= m.

Definition HeightOf (fonts : FontTable) (s : Span) (h : Z) : Prop :=
  exists f, FontOf fonts s f /\ h = f_height f.
Definition LeadOf (fonts : FontTable) (s : Span) (h : Z) : Prop :=
  exists f, FontOf fonts s f /\ h = f_line_spacing f.

(** The line spacing asked for on a line: that of its first span that has one. *)
Inductive Asked : list Span -> option Z -> Prop :=
| As_none l : (forall s, In s l -> rs_line_spacing (span_state s) = None) -> Asked l None
| As_some l a s b n : l = a ++ s :: b -> (forall t, In t a -> rs_line_spacing (span_state t) = None) ->
    rs_line_spacing (span_state s) = Some n -> Asked l (Some n).

(** Space above the line [l] whose previous line is [p]: none on a sign with
    character cells, else the line spacing asked for, else the average of the
    greatest font line spacings of the two lines. *)
Inductive LineGap (d : Dms) (p l : list Span) : Z -> Prop :=
| Lg_cells : char_height_pixels (d_vms_cfg d) <> 0 -> LineGap d p l 0
| Lg_set n : char_height_pixels (d_vms_cfg d) = 0 -> Asked l (Some n) -> LineGap d p l n
| Lg_avg a b : char_height_pixels (d_vms_cfg d) = 0 -> Asked l None ->
    Greatest (LeadOf (d_fonts d)) p a -> Greatest (LeadOf (d_fonts d)) l b ->
    LineGap d p l (half_up (a + b)).

(** Height of lines stacked on each other. *)
Inductive StackHeight (d : Dms) : list (list Span) -> Z -> Prop :=
| Sk_nil : StackHeight d [] 0
| Sk_one l h : Greatest (HeightOf (d_fonts d)) l h -> StackHeight d [l] h
| Sk_snoc r p l v g h : StackHeight d (r ++ [p]) v -> LineGap d p l g ->
    Greatest (HeightOf (d_fonts d)) l h -> StackHeight d (r ++ [p; l]) (v + g + h).

(** [ls] are lines 0, 1, 2 ... of the block of [s], none of them empty. *)
Definition BlockLines (all : list Span) (s : Span) (ls : list (list Span)) : Prop :=
  (forall n l, nth_error ls n = Some l -> l <> [] /\ Picked (OnLine s (Z.of_nat n)) all l)
  /\ (forall t, In t all -> SameBlock s t -> 0 <= s_line t < Z.of_nat (List.length ls)).

(** Bottom edge of a line that ends [a] below the top of its block. *)
Definition place_y (j : JustificationPage) (ch top h total a y : Z) : Prop :=
  match j with
  | JpTop => y = top + a
  | JpMiddle => y = cell ch (top + (h - total) / 2 + a)
  | JpBottom => y = top + h - total + a
  | _ => False
  end.

(** Top edge of a span. *)
Definition PlacedY (d : Dms) (all : list Span) (s : Span) (y : Z) : Prop :=
  exists upto after a total base h,
    BlockLines all s (upto ++ after) /\ Z.of_nat (List.length upto) = s_line s + 1
    /\ StackHeight d upto a /\ StackHeight d (upto ++ after) total
    /\ total <= rheight (s_rect s)
    /\ place_y (s_jp s) (char_height_pixels (d_vms_cfg d)) (ry (s_rect s) - 1)
         (rheight (s_rect s)) total a base
    /\ HeightOf (d_fonts d) s h /\ y = base - h.

(** A rectangle on the sign whose edges fit in 16 bits. *)
Definition rect_fits (r : Rectangle) : Prop :=
  1 <= rx r /\ 1 <= ry r /\ 0 <= rwidth r /\ 0 <= rheight r
  /\ rx r - 1 + rwidth r < 65536 /\ ry r - 1 + rheight r < 65536.

(** ** Drawing *)

(** [Drawn d all todo p q]: drawing the spans [todo] in order, each in its
    foreground colour at its place, turns page [p] into [q]. *)
Inductive Drawn (d : Dms) (all : list Span) : list Span -> Raster rgb -> Raster rgb -> Prop :=
| Dr_nil p : Drawn d all [] p p
| Dr_cons s r p q q' f cs x y :
    SetWith (d_fonts d) s f cs -> PlacedX d all s x -> PlacedY d all s y ->
    Painted p q (InkText (spacing_in s f) (f_height f) cs x y) (foreground_rgb (rs_ctx (span_state s))) ->
    Drawn d all r q q' -> Drawn d all (s :: r) p q'.

(** ** When the layout is regular *)

(** Spans of one run are numbered in increasing order. *)
Definition Numbered (spans : list Span) : Prop :=
  forall a s b t c, spans = a ++ s :: b ++ t :: c -> SameRun s t -> s_number s < s_number t.

(** Every line of a block but the first comes after some text of the line
    above it. *)
Definition Stacked (spans : list Span) : Prop :=
  forall a s b, spans = a ++ s :: b ->
    0 <= s_line s
    /\ (s_line s = 0 \/ exists t, In t a /\ SameBlock s t /\ s_line t = s_line s - 1).

(** Pixel of the rectangle (counted from 0). *)
Definition InRect (r : Rectangle) (x y : Z) : Prop :=
  rx r - 1 <= x < rx r - 1 + rwidth r /\ ry r - 1 <= y < ry r - 1 + rheight r.

(** ** Fitting *)

(** The run of a span is wider, or its block higher, than its rectangle. *)
Definition TooWide (d : Dms) (all : list Span) (s : Span) : Prop :=
  exists run w, Picked (SameRun s) all run /\ RunWidth (d_fonts d) run w /\ rwidth (s_rect s) < w.
Definition TooTall (d : Dms) (all : list Span) (s : Span) : Prop :=
  exists ls h, BlockLines all s ls /\ StackHeight d ls h /\ rheight (s_rect s) < h.

(** Text in font [n] has sound glyphs: [n] is not 0, the number of unused slots of
    the font table, whose glyphs are not checked when the sign is built; or those
    glyphs are sound. *)
Definition SoundFont (d : Dms) (n : Z) : Prop :=
  n <> 0 \/ forall f, In f (d_fonts d) -> f_number f = 0 -> sound_font f.

(** Rounding to character cells keeps the span in its rectangle: a centred span
    in a rectangle that starts on a cell, a span in the middle in one that starts
    on a cell and with a font whose height is a whole number of cells. *)
Definition KeepsCells (d : Dms) (s : Span) : Prop :=
  (s_jl s = JlCenter -> on_boundary (char_width_pixels (d_vms_cfg d)) (rx (s_rect s) - 1))
  /\ (s_jp s = JpMiddle -> on_boundary (char_height_pixels (d_vms_cfg d)) (ry (s_rect s) - 1)
        /\ forall h, HeightOf (d_fonts d) s h -> on_boundary (char_height_pixels (d_vms_cfg d)) h).

(** The rectangle of a span lies on the page. *)
Definition SpanOn {P} (p : Raster P) (s : Span) : Prop :=
  rect_fits (s_rect s) /\ forall x y, InRect (s_rect s) x y -> on_raster p x y.

(** Sums stay below 2^16. *)
Definition SumsFit (d : Dms) (all : list Span) : Prop :=
  forall s, In s all ->
    (forall run w, Picked (SameRun s) all run -> RunWidth (d_fonts d) run w -> w < 65536)
    /\ (forall ls h, BlockLines all s ls -> StackHeight d ls h -> h < 65536).

(** ** Edges *)

Definition FirstOfRun (all : list Span) (s : Span) : Prop :=
  exists a b, all = a ++ s :: b /\ forall t, In t a -> ~ SameRun s t.
Definition LastOfRun (all : list Span) (s : Span) : Prop :=
  exists a b, all = a ++ s :: b /\ forall t, In t b -> ~ SameRun s t.
(** The last line of the block of a span is its own. *)
Definition OnLastLine (all : list Span) (s : Span) : Prop :=
  forall t, In t all -> SameBlock s t -> s_line t <= s_line s.

(** The widths and spaces of the run of a span are whole character cells. *)
Definition WholeCells (d : Dms) (all : list Span) (s : Span) : Prop :=
  forall t, In t all -> SameRun s t ->
    (forall w, SpanWidth (d_fonts d) t w -> on_boundary (char_width_pixels (d_vms_cfg d)) w)
    /\ (forall u g, In u all -> SameRun s u -> Gap (d_fonts d) t u g ->
          on_boundary (char_width_pixels (d_vms_cfg d)) g).

(** A sign that [build] accepts, from fields in the range of their types. *)
Definition Built (d : Dms) : Prop := exists md b, builder_fields b /\ build md b = Val (Ok d).

(** Justifications that the renderer can place. *)
Definition Placeable (s : Span) : Prop :=
  (s_jl s = JlLeft \/ s_jl s = JlCenter \/ s_jl s = JlRight)
  /\ (s_jp s = JpTop \/ s_jp s = JpMiddle \/ s_jp s = JpBottom).
