(** Where each text is drawn, for any sequence of tags: also when texts of a run
    have the same number or a line has no text above it.  Written from the
    documentation of src/dms/render.rs; conservative over Spec_Layout. *)

From Verif Require Import Base Str Multi Color Raster Font Graphic Config Sign Render
  Spec_Color Spec_Font Spec_Sign Spec_Layout.
Open Scope list_scope.

(** Distance from the start of a run to its text with number [n]: the widths of
    the texts with smaller numbers, and the spaces before those up to [n]. *)
Inductive RunOffset (fonts : FontTable) (n : Z) : option Span -> list Span -> Z -> Prop :=
| Ro_nil p : RunOffset fonts n p [] 0
| Ro_first t r w v : SpanWidth fonts t w -> RunOffset fonts n (Some t) r v ->
    RunOffset fonts n None (t :: r) ((if s_number t <? n then w else 0) + v)
| Ro_next p t r g w v : Gap fonts p t g -> SpanWidth fonts t w -> RunOffset fonts n (Some t) r v ->
    RunOffset fonts n (Some p) (t :: r)
      ((if s_number t <=? n then g else 0) + (if s_number t <? n then w else 0) + v).

(** Left edge of a span. *)
Definition AtX (d : Dms) (all : list Span) (s : Span) (x : Z) : Prop :=
  exists run b total,
    Picked (SameRun s) all run /\ RunOffset (d_fonts d) (s_number s) None run b
    /\ RunWidth (d_fonts d) run total /\ total <= rwidth (s_rect s)
    /\ place_x (s_jl s) (char_width_pixels (d_vms_cfg d)) (rx (s_rect s) - 1)
         (rwidth (s_rect s)) total b x.

(** The lines of a block as they are counted: text with a line number past the
    lines so far starts a new line, other text is on the line of its number. *)
Inductive Counted : list Span -> list (list Span) -> Prop :=
| Ct_nil : Counted [] []
| Ct_new l ls s : Counted l ls -> Z.of_nat (List.length ls) <= s_line s ->
    Counted (l ++ [s]) (ls ++ [[s]])
| Ct_old l a x b s : Counted l (a ++ x :: b) -> s_line s = Z.of_nat (List.length a) ->
    Counted (l ++ [s]) (a ++ (x ++ [s]) :: b).

(** Top edge of a span: below the counted lines up to its number. *)
Definition AtY (d : Dms) (all : list Span) (s : Span) (y : Z) : Prop :=
  exists block ls a total base h,
    Picked (SameBlock s) all block /\ Counted block ls
    /\ StackHeight d (firstn (Z.to_nat (s_line s + 1)) ls) a /\ StackHeight d ls total
    /\ total <= rheight (s_rect s)
    /\ place_y (s_jp s) (char_height_pixels (d_vms_cfg d)) (ry (s_rect s) - 1)
         (rheight (s_rect s)) total a base
    /\ HeightOf (d_fonts d) s h /\ y = base - h.

(** [DrawnAt d all todo p q]: drawing the spans [todo] in order, each in its
    foreground colour at its place, turns page [p] into [q]. *)
Inductive DrawnAt (d : Dms) (all : list Span) : list Span -> Raster rgb -> Raster rgb -> Prop :=
| Da_nil p : DrawnAt d all [] p p
| Da_cons s r p q q' f cs x y :
    SetWith (d_fonts d) s f cs -> AtX d all s x -> AtY d all s y ->
    Painted p q (InkText (spacing_in s f) (f_height f) cs x y) (foreground_rgb (rs_ctx (span_state s))) ->
    DrawnAt d all r q q' -> DrawnAt d all (s :: r) p q'.

(** The same image, and the same page. *)
Definition SameImage (p q : Raster rgb) : Prop :=
  r_width q = r_width p /\ r_height q = r_height p
  /\ forall x y, on_raster p x y -> r_pixel q x y = r_pixel p x y.
Definition SamePage (p q : Page) : Prop :=
  pg_duration q = pg_duration p /\ SameImage (pg_raster p) (pg_raster q).
