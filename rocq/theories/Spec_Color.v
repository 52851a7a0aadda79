(** Specification of colours and rectangles. *)

From Verif Require Import Base Str Multi Color.

(** ** Levels (C14) *)

(** Level [v] of 255 between [bg] and [fg], as documented. *)
Definition level (bg fg v : Z) : Z := bg + v * (fg - bg) / 255.

(** ** Colour schemes (C15) *)

(** The classic palette, by index. *)
Definition palette : list rgb :=
  [(0, 0, 0); (255, 0, 0); (255, 255, 0); (0, 255, 0); (0, 255, 255); (0, 0, 255);
   (255, 0, 255); (255, 255, 255); (255, 165, 0); (255, 208, 0)].

Definition rgb_ok (c : rgb) : Prop := let '(r, g, b) := c in u8 r /\ u8 g /\ u8 b.

(** Level [v] of the way from the smaller to the larger of two components: what
    the code computes.  It is [level] when [bg <= fg] (C14). *)
Definition level_up (bg fg v : Z) : Z := level (Z.min bg fg) (Z.max bg fg) v.

(** [Shows ctx c x]: on this sign, colour [c] is displayed as [x]. *)
Inductive Shows (ctx : ColorCtx) : Color -> rgb -> Prop :=
| Sw_1_bg : color_scheme ctx = Monochrome1Bit -> Shows ctx (Legacy 0) (bg_default ctx)
| Sw_1_fg : color_scheme ctx = Monochrome1Bit -> Shows ctx (Legacy 1) (fg_default ctx)
| Sw_8 v b0 b1 b2 f0 f1 f2 : color_scheme ctx = Monochrome8Bit ->
    bg_default ctx = (b0, b1, b2) -> fg_default ctx = (f0, f1, f2) ->
    Shows ctx (Legacy v) (level_up b0 f0 v, level_up b1 f1 v, level_up b2 f2 v)
| Sw_classic v x : color_scheme ctx = ColorClassicScheme \/ color_scheme ctx = Color24Bit ->
    0 <= v -> nth_error palette (Z.to_nat v) = Some x -> Shows ctx (Legacy v) x
| Sw_24 r g b : color_scheme ctx = Color24Bit -> Shows ctx (Rgb r g b) (r, g, b).

Definition ctx_ok (ctx : ColorCtx) : Prop := rgb_ok (fg_default ctx) /\ rgb_ok (bg_default ctx).

(** What setting a colour does to a context; [get] reads the colour that is set,
    [other] the one that is not. *)
Definition SetsColor (get other : ColorCtx -> rgb) (dflt : rgb) (ctx ctx' : ColorCtx)
    (c : option Color) (v : Value) (r : result unit SyntaxError) : Prop :=
  other ctx' = other ctx /\ color_scheme ctx' = color_scheme ctx
  /\ fg_default ctx' = fg_default ctx /\ bg_default ctx' = bg_default ctx
  /\ match c with
     | None => r = Ok tt /\ get ctx' = dflt
     | Some c => (exists x, Shows ctx c x /\ r = Ok tt /\ get ctx' = x)
         \/ ((forall x, ~ Shows ctx c x) /\ r = Err (SUnsupportedTagValue (display v)) /\ ctx' = ctx)
     end.

(** ** Rectangles (C16) *)

Definition InRect (r : Rectangle) (x y : Z) : Prop :=
  rx r <= x < rx r + rwidth r /\ ry r <= y < ry r + rheight r.

Definition u16_rect (r : Rectangle) : Prop :=
  u16 (rx r) /\ u16 (ry r) /\ u16 (rwidth r) /\ u16 (rheight r).

(** The edges after the last column and row fit 16 bits. *)
Definition edges_fit (r : Rectangle) : Prop :=
  rx r + rwidth r < 65536 /\ ry r + rheight r < 65536.
