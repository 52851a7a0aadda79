(** Specification of graphics. *)

From Verif Require Import Base Str Multi Color Raster Graphic Spec_Color Spec_Font Spec_Tfon.

(** ** Validity *)

(** The bitmap has exactly the bytes its size and colour scheme need. *)
Definition bitmap_complete (g : Graphic) : Prop :=
  let pixels := g_height g * g_width g in
  let bytes := Z.of_nat (length (g_bitmap g)) in
  match g_type g with
  | Monochrome1Bit => pixels <= 8 * bytes < pixels + 8
  | Monochrome8Bit | ColorClassicScheme => bytes = pixels
  | Color24Bit => bytes = 3 * pixels
  end.

Definition valid_graphic (w h : Z) (g : Graphic) : Prop :=
  1 <= g_number g /\ 1 <= g_height g <= h /\ 1 <= g_width g <= w
  /\ bitmap_complete g /\ color_kind_ok g.

(** The first violated rule. *)
Inductive GraphicVerdict (w h : Z) (g : Graphic) : result unit GraphicError -> Prop :=
| GVNumber : g_number g < 1 -> GraphicVerdict w h g (Err GInvalidNumber)
| GVHeight : 1 <= g_number g -> ~ (1 <= g_height g <= h) -> GraphicVerdict w h g (Err GInvalidHeight)
| GVWidth : 1 <= g_number g -> 1 <= g_height g <= h -> ~ (1 <= g_width g <= w) ->
    GraphicVerdict w h g (Err GInvalidWidth)
| GVBitmap : 1 <= g_number g -> 1 <= g_height g <= h -> 1 <= g_width g <= w ->
    ~ bitmap_complete g -> GraphicVerdict w h g (Err GInvalidBitmap)
| GVColor : 1 <= g_number g -> 1 <= g_height g <= h -> 1 <= g_width g <= w ->
    bitmap_complete g -> ~ color_kind_ok g -> GraphicVerdict w h g (Err GInvalidTransparentColor)
| GVOk : valid_graphic w h g -> GraphicVerdict w h g (Ok tt).

(** ** Pixels *)

(** The colour stored in the bitmap for column [x] of row [y]: rows run left to
    right and top to bottom; 1-bit pixels from the most significant bit; 24-bit
    pixels as blue, green, red. *)
Inductive Stored (g : Graphic) (x y : Z) : Color -> Prop :=
| St_1 k b i (v : bool) : g_type g = Monochrome1Bit ->
    nth_error (g_bitmap g) k = Some b -> 0 <= i < 8 ->
    y * g_width g + x = 8 * Z.of_nat k + i -> Z.testbit b (7 - i) = v ->
    Stored g x y (Legacy (if v then 1 else 0))
| St_8 k v : g_type g = Monochrome8Bit \/ g_type g = ColorClassicScheme ->
    nth_error (g_bitmap g) k = Some v -> y * g_width g + x = Z.of_nat k ->
    Stored g x y (Legacy v)
| St_24 k r v b : g_type g = Color24Bit -> y * g_width g + x = Z.of_nat k ->
    nth_error (g_bitmap g) (3 * k) = Some b -> nth_error (g_bitmap g) (3 * k + 1) = Some v ->
    nth_error (g_bitmap g) (3 * k + 2) = Some r -> Stored g x y (Rgb r v b).

(** How the sign shows a stored colour: 1-bit graphics use the current
    foreground and background, 24-bit ones their own colours. *)
Inductive Displays (g : Graphic) (ctx : ColorCtx) : Color -> rgb -> Prop :=
| Dp_fg x : g_type g = Monochrome1Bit -> Shows ctx (fg_current ctx) x -> Displays g ctx (Legacy 1) x
| Dp_bg x : g_type g = Monochrome1Bit -> Shows ctx (bg_current ctx) x -> Displays g ctx (Legacy 0) x
| Dp_8 v x : g_type g = Monochrome8Bit \/ g_type g = ColorClassicScheme ->
    Shows ctx (Legacy v) x -> Displays g ctx (Legacy v) x
| Dp_24 r v b : g_type g = Color24Bit -> Displays g ctx (Rgb r v b) (r, v, b).

(** The graphic puts colour [c'] on its pixel at column [x] of row [y]. *)
Definition Inks (g : Graphic) (ctx : ColorCtx) (x y : Z) (c' : rgb) : Prop :=
  0 <= x < g_width g /\ 0 <= y < g_height g
  /\ exists c, Stored g x y c /\ g_transparent g <> Some c /\ Displays g ctx c c'.

(** [q] is [p] with the pixels in [I] changed to the given colours. *)
Definition Overlaid {P} (p q : Raster P) (I : Z -> Z -> P -> Prop) : Prop :=
  r_width q = r_width p /\ r_height q = r_height p
  /\ forall x y, (forall c, I x y c -> r_pixel q x y = c)
       /\ ((forall c, ~ I x y c) -> r_pixel q x y = r_pixel p x y).

Definition ctx_bytes (ctx : ColorCtx) : Prop :=
  ctx_ok ctx /\ color_bytes (fg_current ctx) /\ color_bytes (bg_current ctx).

(** The colour that [to_raster] documents for a stored colour: 1-bit graphics
    are white on black, 8-bit ones grey levels, classic ones palette indices. *)
Inductive Encodes (g : Graphic) : Color -> rgb -> Prop :=
| En_1 : g_type g = Monochrome1Bit -> Encodes g (Legacy 1) (255, 255, 255)
| En_0 : g_type g = Monochrome1Bit -> Encodes g (Legacy 0) (0, 0, 0)
| En_8 v : g_type g = Monochrome8Bit -> Encodes g (Legacy v) (v, v, v)
| En_classic v x : g_type g = ColorClassicScheme -> 0 <= v ->
    nth_error palette (Z.to_nat v) = Some x -> Encodes g (Legacy v) x
| En_24 r v b : g_type g = Color24Bit -> Encodes g (Rgb r v b) (r, v, b).

(** The documented RGBA pixel of [to_raster]. *)
Inductive DocPixel (g : Graphic) (x y : Z) : rgba -> Prop :=
| Doc_clear c : Stored g x y c -> g_transparent g = Some c -> DocPixel g x y ((0, 0, 0), 0)
| Doc_color c r : Stored g x y c -> g_transparent g <> Some c -> Encodes g c r ->
    DocPixel g x y (r, 255).

(** ** Tables *)

(** A graphic that is in use and fits a sign of this size. *)
Definition kept (w h : Z) (g : Graphic) : Prop :=
  g_number g <> 0 /\ g_width g <= w /\ g_height g <= h.

(** The numbers of the kept graphics, in order. *)
Inductive KeptNumbers (w h : Z) : GraphicTable -> list Z -> Prop :=
| KN_nil : KeptNumbers w h [] []
| KN_keep g t ns : kept w h g -> KeptNumbers w h t ns -> KeptNumbers w h (g :: t) (g_number g :: ns)
| KN_skip g t ns : ~ kept w h g -> KeptNumbers w h t ns -> KeptNumbers w h (g :: t) ns.

Definition valid_graphics (w h : Z) (t : GraphicTable) : Prop :=
  (forall g, In g t -> kept w h g -> valid_graphic w h g)
  /\ exists ns, KeptNumbers w h t ns /\ NoDup ns.

(** The first invalid kept graphic, or a duplicated number. *)
Inductive GraphicsVerdict (w h : Z) (t : GraphicTable) : result unit GraphicError -> Prop :=
| GTVGraphic pre g post e : t = pre ++ g :: post -> kept w h g ->
    (forall k, In k pre -> kept w h k -> valid_graphic w h k) ->
    GraphicVerdict w h g (Err e) -> GraphicsVerdict w h t (Err e)
| GTVDup ns : (forall g, In g t -> kept w h g -> valid_graphic w h g) ->
    KeptNumbers w h t ns -> ~ NoDup ns -> GraphicsVerdict w h t (Err GDuplicateNumber)
| GTVOk : valid_graphics w h t -> GraphicsVerdict w h t (Ok tt).
