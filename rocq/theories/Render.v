(** Model of src/dms/render.rs. *)

From Coq Require Import String.
From Verif Require Import Base Str Multi Color Raster Font Graphic Config Sign.

(** render.rs 21-22 *)
Definition MAX_TEXT_RECTANGLES : Z := 50.

(** render.rs 24-31: [Page]. *)
Record Page := mkPage { pg_raster : Raster rgb; pg_duration : Z }.

(** render.rs 33-44: [PageState]. *)
Inductive PageState := PsOn (more : bool) | PsOff (more : bool) | PsDone.

(** render.rs 46-84: [RenderState]. *)
Record RenderState := mkRS {
  rs_ctx : ColorCtx;
  rs_on_time : Z; rs_off_time : Z;
  rs_rect : Rectangle;
  rs_jp : JustificationPage; rs_jl : JustificationLine;
  rs_font : Z; rs_font_vid : option Z;
  rs_line_spacing : option Z; rs_char_spacing : option Z;
  rs_line : Z; rs_span : Z }.

(** Field updates of [RenderState]. *)
Definition set_ctx (r : RenderState) (v : ColorCtx) : RenderState :=
  mkRS v (rs_on_time r) (rs_off_time r) (rs_rect r) (rs_jp r) (rs_jl r)
    (rs_font r) (rs_font_vid r) (rs_line_spacing r) (rs_char_spacing r) (rs_line r) (rs_span r).
Definition set_times (r : RenderState) (on off : Z) : RenderState :=
  mkRS (rs_ctx r) on off (rs_rect r) (rs_jp r) (rs_jl r)
    (rs_font r) (rs_font_vid r) (rs_line_spacing r) (rs_char_spacing r) (rs_line r) (rs_span r).
Definition set_rect (r : RenderState) (v : Rectangle) : RenderState :=
  mkRS (rs_ctx r) (rs_on_time r) (rs_off_time r) v (rs_jp r) (rs_jl r)
    (rs_font r) (rs_font_vid r) (rs_line_spacing r) (rs_char_spacing r) (rs_line r) (rs_span r).
Definition set_jp (r : RenderState) (v : JustificationPage) : RenderState :=
  mkRS (rs_ctx r) (rs_on_time r) (rs_off_time r) (rs_rect r) v (rs_jl r)
    (rs_font r) (rs_font_vid r) (rs_line_spacing r) (rs_char_spacing r) (rs_line r) (rs_span r).
Definition set_jl (r : RenderState) (v : JustificationLine) : RenderState :=
  mkRS (rs_ctx r) (rs_on_time r) (rs_off_time r) (rs_rect r) (rs_jp r) v
    (rs_font r) (rs_font_vid r) (rs_line_spacing r) (rs_char_spacing r) (rs_line r) (rs_span r).
Definition set_font (r : RenderState) (n : Z) (vid : option Z) : RenderState :=
  mkRS (rs_ctx r) (rs_on_time r) (rs_off_time r) (rs_rect r) (rs_jp r) (rs_jl r)
    n vid (rs_line_spacing r) (rs_char_spacing r) (rs_line r) (rs_span r).
Definition set_line_spacing (r : RenderState) (v : option Z) : RenderState :=
  mkRS (rs_ctx r) (rs_on_time r) (rs_off_time r) (rs_rect r) (rs_jp r) (rs_jl r)
    (rs_font r) (rs_font_vid r) v (rs_char_spacing r) (rs_line r) (rs_span r).
Definition set_char_spacing (r : RenderState) (v : option Z) : RenderState :=
  mkRS (rs_ctx r) (rs_on_time r) (rs_off_time r) (rs_rect r) (rs_jp r) (rs_jl r)
    (rs_font r) (rs_font_vid r) (rs_line_spacing r) v (rs_line r) (rs_span r).
Definition set_line (r : RenderState) (v : Z) : RenderState :=
  mkRS (rs_ctx r) (rs_on_time r) (rs_off_time r) (rs_rect r) (rs_jp r) (rs_jl r)
    (rs_font r) (rs_font_vid r) (rs_line_spacing r) (rs_char_spacing r) v (rs_span r).
Definition set_span (r : RenderState) (v : Z) : RenderState :=
  mkRS (rs_ctx r) (rs_on_time r) (rs_off_time r) (rs_rect r) (rs_jp r) (rs_jl r)
    (rs_font r) (rs_font_vid r) (rs_line_spacing r) (rs_char_spacing r) (rs_line r) v.

(** render.rs 86-94: [Span]; the [FStr<4>] of a hexadecimal character is its
    four bytes' worth of characters. *)
Inductive Span :=
| SpText (rs : RenderState) (t : str)
| SpHex (rs : RenderState) (fs : str).

(** render.rs 96-107: [TextLine]. *)
Record TextLine := mkLine { tl_height : Z; tl_font_spacing : Z; tl_line_spacing : option Z }.

(** render.rs 125-143: [Pages] (the sign is passed separately). *)
Record Pages := mkPages {
  p_default : RenderState; p_rs : RenderState; p_state : PageState;
  p_values : MultiStr; p_spans : list Span }.

(** render.rs 145-153 *)
Definition new_page (page_off : bool) : PageState :=
  if page_off then PsOff true else PsOn true.

(** render.rs 155-162 *)
Definition done (page_off : bool) : PageState :=
  if page_off then PsOff false else PsDone.

(** render.rs 164-173 *)
Definition next_state (p : PageState) : PageState :=
  match p with
  | PsOn true => PsOff true
  | PsOn false => PsDone
  | PsOff true => PsOn false
  | PsOff false => PsDone
  | PsDone => PsDone
  end.

(** render.rs 177-200: [RenderState::new]. *)
Definition rs_new (d : Dms) : RenderState :=
  let c := d_multi_cfg d in
  mkRS (dms_color_ctx d) (default_page_on_time c) (default_page_off_time c)
    (mkRect 1 1 (sign_width_pixels (d_vms_cfg d)) (sign_height_pixels (d_vms_cfg d)))
    (default_justification_page c) (default_justification_line c)
    (default_font c) None None None 0 0.

(** render.rs 214-219 *)
Definition matches_span (a b : RenderState) : bool :=
  jp_eqb (rs_jp a) (rs_jp b) && (rs_line a =? rs_line b) && jl_eqb (rs_jl a) (rs_jl b).

(** render.rs 221-224 *)
Definition matches_line (a b : RenderState) : bool := jp_eqb (rs_jp a) (rs_jp b).

(** render.rs 226-242: [RenderState::font]. *)
Definition rs_get_font (r : RenderState) (fonts : FontTable) : result Font SyntaxError :=
  match font_lookup fonts (rs_font r), rs_font_vid r with
  | Some f, Some vid => if vid =? font_version_id f then Ok f else Err SFontVersionID
  | Some f, None => Ok f
  | None, _ => Err (SFontNotDefined (rs_font r))
  end.

(** multi.rs 887-894: [SyntaxError::from(FontError)]. *)
Definition from_font_error (e : FontError) : SyntaxError :=
  match e with
  | FInvalidChar c => SCharacterNotDefined c
  | _ => SOther (lit "Font error")
  end.

(** multi.rs 896-903: [SyntaxError::from(GraphicError)]. *)
Definition from_graphic_error (e : GraphicError) : SyntaxError :=
  match e with
  | GTooBig => SOther (lit "Graphic too big")
  | _ => SOther (lit "Graphic render error")
  end.

(** [?] with error conversion. *)
Definition map_err {A E F} (g : E -> F) (m : M (result A E)) : M (result A F) :=
  let! r := m in
  Val (match r with Ok a => Ok a | Err e => Err (g e) end).

(** render.rs 246-252: [Span::as_str]. *)
Definition span_str (s : Span) : str :=
  match s with SpText _ t => t | SpHex _ fs => to_terminator fs end.

(** render.rs 254-260: [Span::state]. *)
Definition span_state (s : Span) : RenderState :=
  match s with SpText r _ => r | SpHex r _ => r end.

(** render.rs 272-282: [Span::char_spacing_fonts]. *)
Definition char_spacing_fonts (s : Span) (fonts : FontTable) : result Z SyntaxError :=
  match rs_char_spacing (span_state s) with
  | Some sp => Ok sp
  | None => match rs_get_font (span_state s) fonts with
            | Ok f => Ok (f_char_spacing f)
            | Err e => Err e
            end
  end.

(** render.rs 262-270: [Span::width]. *)
Definition span_width (md : mode) (s : Span) (fonts : FontTable)
  : M (result Z SyntaxError) :=
  let? font := Val (rs_get_font (span_state s) fonts) in
  let? cs := Val (char_spacing_fonts s fonts) in
  map_err from_font_error (text_width md font (span_str s) (Some cs)).

(** render.rs 284-290: [Span::char_spacing_font]. *)
Definition char_spacing_font (s : Span) (f : Font) : Z :=
  match rs_char_spacing (span_state s) with Some sp => sp | None => f_char_spacing f end.

(** The average of two spacings, rounded up (render.rs 306, 373; sums of two
    u8 values cannot overflow u16). *)
Definition avg_up (a b : Z) : Z := Z.shiftr (a + b) 1 + Z.land (a + b) 1.

(** render.rs 292-308: [Span::char_spacing_between]. *)
Definition char_spacing_between (s prev : Span) (fonts : FontTable) : result Z SyntaxError :=
  match rs_char_spacing (span_state s) with
  | Some c => Ok c
  | None =>
      match char_spacing_fonts prev fonts with
      | Err e => Err e
      | Ok psc =>
          match char_spacing_fonts s fonts with
          | Err e => Err e
          | Ok sc => Ok (avg_up psc sc)
          end
      end
  end.

(** render.rs 310-316: [Span::height]. *)
Definition span_height (s : Span) (fonts : FontTable) : result Z SyntaxError :=
  match rs_get_font (span_state s) fonts with Ok f => Ok (f_height f) | Err e => Err e end.

(** render.rs 318-324: [Span::font_spacing]. *)
Definition span_font_spacing (s : Span) (fonts : FontTable) : result Z SyntaxError :=
  match rs_get_font (span_state s) fonts with Ok f => Ok (f_line_spacing f) | Err e => Err e end.

(** render.rs 326-329: [Span::line_spacing]. *)
Definition span_line_spacing (s : Span) : option Z := rs_line_spacing (span_state s).

(** render.rs 331-342: [Span::render_text]. *)
Definition span_render_text (md : mode) (s : Span) (raster : Raster rgb) (font : Font)
    (x y : Z) : M (result (Raster rgb) SyntaxError) :=
  map_err from_font_error
    (font_render_text md font raster (span_str s) x y (char_spacing_font s font)
       (foreground_rgb (rs_ctx (span_state s)))).

(** render.rs 355-360: [TextLine::combine]. *)
Definition combine (a b : TextLine) : TextLine :=
  mkLine (Z.max (tl_height a) (tl_height b))
    (Z.max (tl_font_spacing a) (tl_font_spacing b))
    (match tl_line_spacing a with Some x => Some x | None => tl_line_spacing b end).

(** render.rs 362-375: [TextLine::line_spacing]. *)
Definition line_spacing (a prev : TextLine) : Z :=
  match tl_line_spacing a with
  | Some ls => ls
  | None => avg_up (tl_font_spacing prev) (tl_font_spacing a)
  end.

(** render.rs 379-394: [Pages::new]. *)
Definition pages_new (d : Dms) (ms : str) : Pages :=
  mkPages (rs_new d) (rs_new d) (PsOn true) (ms_new ms) [].

(** render.rs 401-404 *)
Definition r_char_width (d : Dms) : Z := Z.max (char_width d) 1.

(** render.rs 406-409 *)
Definition r_char_height (d : Dms) : Z := Z.max (char_height d) 1.

(** render.rs 430-436: [build_raster]. *)
Definition build_raster (r : RenderState) : Raster rgb :=
  with_color (rwidth (rs_rect r)) (rheight (rs_rect r)) (background_rgb (rs_ctx r)).

(** render.rs 421-428: [render_off_page]. *)
Definition render_off_page (p : Pages) : Page * Pages :=
  (mkPage (build_raster (p_rs p)) (rs_off_time (p_rs p)),
   mkPages (p_default p) (p_rs p) (next_state (p_state p)) (p_values p) (p_spans p)).

Definition Items := list (M (result Value SyntaxError) * MultiStr).

(** render.rs 461-473: the loop of [check_unsupported]. *)
Fixpoint check_unsupported (d : Dms) (vs : Items) : M (result unit SyntaxError) :=
  match vs with
  | [] => Val (Ok tt)
  | (m, _) :: r =>
      let? val := m in
      match value_tag val with
      | Some tag =>
          if negb (contains_tag (supported_multi_tags (d_multi_cfg d)) tag)
          then Val (Err (SUnsupportedTag (display val)))
          else if tag_bit tag =? tag_bit TNp then Val (Ok tt)
          else check_unsupported d r
      | None => check_unsupported d r
      end
  end.

(** render.rs 485-499: the loop of [update_page_state]; also gives the render
    state reached when it stops with an error. *)
Fixpoint update_page_loop (ds : RenderState) (vs : Items) (rs : RenderState)
  : M (RenderState * result unit SyntaxError) :=
  match vs with
  | [] => Val (rs, Ok tt)
  | (m, _) :: r =>
      let! x := m in
      match x with
      | Err e => Val (rs, Err e)
      | Ok val =>
          match val with
          | VColorBackground clr | VPageBackground clr =>
              let '(ctx, res) := set_background (rs_ctx rs) clr val in
              let rs := set_ctx rs ctx in
              match res with
              | Ok _ => update_page_loop ds r rs
              | Err e => Val (rs, Err e)
              end
          | VNewPage => Val (rs, Ok tt)
          | VPageTime on off =>
              update_page_loop ds r
                (set_times rs
                   (match on with Some n => n | None => rs_on_time ds end)
                   (match off with Some n => n | None => rs_off_time ds end))
          | _ => update_page_loop ds r rs
          end
      end
  end.

(** render.rs 476-500: [update_page_state]. *)
Definition update_page_state (ds : RenderState) (vs : Items) (rs : RenderState)
  : M (RenderState * result unit SyntaxError) :=
  let rs := set_rect rs (rs_rect ds) in
  let rs := set_line_spacing rs (rs_line_spacing ds) in
  let rs := set_span (set_line rs 0) 0 in
  update_page_loop ds vs rs.

(** render.rs 930-954: [render_rect].  ([try_into().unwrap()] cannot fail: the
    raster was built from 16-bit sizes.) *)
Definition render_rect (md : mode) (raster : Raster rgb) (rect : Rectangle) (clr : rgb)
    (v : Value) : M (result (Raster rgb) SyntaxError) :=
  let! _ := (match md with
             | Debug => if (0 <? rx rect) && (0 <? ry rect) then Val tt else Panic
             | Release => Val tt
             end) in
  let full := mkRect 1 1 (r_width raster) (r_height raster) in
  let rect := extend_width_height rect full in
  let! i := intersection md rect full in
  if rect_eqb i rect then
    Val (Ok (copy_color raster (rx rect - 1) (ry rect - 1) (rwidth rect) (rheight rect) clr))
  else Val (Err (SUnsupportedTagValue (display v))).

(** render.rs 545-559: [Pages::graphic]. *)
Definition get_graphic (d : Dms) (gn : Z) (gid : option Z) : result Graphic SyntaxError :=
  match graphic_lookup (d_graphics d) gn, gid with
  | Some g, None => Ok g
  | Some g, Some gid => if gid =? graphic_version_id g then Ok g else Err SGraphicID
  | None, _ => Err (SGraphicNotDefined gn)
  end.

(** render.rs 505-541: the loop of [render_graphics] (the raster is dropped on
    error). *)
Fixpoint render_graphics_loop (md : mode) (d : Dms) (vs : Items) (ctx : ColorCtx)
    (raster : Raster rgb) : M (result (Raster rgb) SyntaxError) :=
  match vs with
  | [] => Val (Ok raster)
  | (m, _) :: r =>
      let? val := m in
      match val with
      | VColorBackground clr =>
          let '(ctx, res) := set_background ctx clr val in
          let? _ := Val res in
          render_graphics_loop md d r ctx raster
      | VColorForeground clr =>
          let '(ctx, res) := set_foreground ctx clr val in
          let? _ := Val res in
          render_graphics_loop md d r ctx raster
      | VColorRectangle rect clr =>
          let '(ctx', res) := set_foreground ctx (Some clr) val in
          let? _ := Val res in
          let? raster := render_rect md raster rect (foreground_rgb ctx') val in
          render_graphics_loop md d r ctx raster
      | VField _ _ | VFlash _ _ _ | VFlashEnd => Panic
      | VGraphic gn None =>
          let? g := Val (get_graphic d gn None) in
          let? raster := map_err from_graphic_error (render_graphic md g raster 1 1 ctx) in
          render_graphics_loop md d r ctx raster
      | VGraphic gn (Some (x, y, gid)) =>
          let? g := Val (get_graphic d gn gid) in
          let? raster := map_err from_graphic_error (render_graphic md g raster x y ctx) in
          render_graphics_loop md d r ctx raster
      | VManufacturerSpecific _ _ | VManufacturerSpecificEnd _ _
      | VMovingText _ _ _ _ _ _ => Panic
      | VNewPage | VTextRectangle _ => Val (Ok raster)
      | _ => render_graphics_loop md d r ctx raster
      end
  end.

(** render.rs 502-543: [render_graphics]. *)
Definition render_graphics (md : mode) (d : Dms) (p : Pages) (raster : Raster rgb)
  : M (result (Raster rgb) SyntaxError) :=
  render_graphics_loop md d (items md (p_values p)) (rs_ctx (p_rs p)) raster.

(** render.rs 691-712: [update_text_rectangle]. *)
Definition update_text_rectangle (md : mode) (d : Dms) (ds : RenderState) (rect : Rectangle)
  : M (option Rectangle) :=
  let rect := extend_width_height rect (rs_rect ds) in
  let! i := intersection md rect (rs_rect ds) in
  if negb (rect_eqb i rect) then Val None
  else
    let cw := r_char_width d in
    let! x := chk16 md (rx rect - 1) in
    if negb (x mod cw =? 0) || negb (rwidth rect mod cw =? 0) then Val None
    else
      let lh := r_char_height d in
      let! y := chk16 md (ry rect - 1) in
      if negb (y mod lh =? 0) || negb (rheight rect mod lh =? 0) then Val None
      else Val (Some rect).

(** render.rs 670-671: [FStr::<4>] filled with NUL, [c] written at 0. *)
Definition fstr4 (c : Z) : str := c :: repeat 0 (Z.to_nat (4 - utf8_len c)).

(** How the loop of [render_text_rectangle] ended: the render state, page
    state, iterator and spans, and the [?]/[return] result. *)
Record RtrEnd := mkRtr {
  e_rs : RenderState; e_state : PageState; e_values : MultiStr;
  e_spans : list Span; e_res : result unit SyntaxError }.

(** render.rs 573-686: the loop of [render_text_rectangle]; [m0] is the
    iterator state before the head of [vs]. *)
Fixpoint rtr_loop (md : mode) (d : Dms) (ds : RenderState) (page_off : bool)
    (vs : Items) (m0 : MultiStr) (rs : RenderState) (spans : list Span)
    (line_blank : bool) : M RtrEnd :=
  match vs with
  | [] => Val (mkRtr rs (done page_off) m0 spans (Ok tt))
  | (m, m1) :: r =>
      let! x := m in
      let stop e := Val (mkRtr rs (done page_off) m1 spans (Err e)) in
      match x with
      | Err e => stop e
      | Ok val =>
          let bad := stop (SUnsupportedTagValue (display val)) in
          let go rs := rtr_loop md d ds page_off r m1 rs in
          match val with
          | VColorForeground clr =>
              let '(ctx, res) := set_foreground (rs_ctx rs) clr val in
              let rs := set_ctx rs ctx in
              match res with
              | Ok _ => go rs spans line_blank
              | Err e => Val (mkRtr rs (done page_off) m1 spans (Err e))
              end
          | VFont f =>
              go (set_font rs (match f with Some (n, _) => n | None => rs_font ds end)
                    (match f with Some (_, v) => v | None => rs_font_vid ds end))
                spans line_blank
          | VJustificationLine (Some JlOther) => bad
          | VJustificationLine (Some JlFull) => bad
          | VJustificationLine jl =>
              go (set_span (set_jl rs (match jl with Some j => j | None => rs_jl ds end)) 0)
                spans line_blank
          | VJustificationPage (Some JpOther) => bad
          | VJustificationPage jp =>
              let jp := match jp with Some j => j | None => rs_jp ds end in
              if negb (jp_eqb jp (rs_jp rs))
              then go (set_span (set_line (set_jp rs jp) 0) 0) spans line_blank
              else go rs spans line_blank
          | VNewLine ls =>
              let refused := match ls with
                             | Some n => (0 <? char_height d) && (0 <? n)
                             | None => false
                             end in
              if refused then bad
              else
                let spans := if line_blank then spans ++ [SpText rs []] else spans in
                let rs := set_line_spacing rs ls in
                let! ln := chk8 md (rs_line rs + 1) in
                go (set_span (set_line rs ln) 0) spans true
          | VNewPage => Val (mkRtr rs (new_page page_off) m1 spans (Ok tt))
          | VSpacingCharacter sc =>
              if (0 <? char_width d) && (0 <? sc) then bad
              else go (set_char_spacing rs (Some sc)) spans line_blank
          | VSpacingCharacterEnd => go (set_char_spacing rs None) spans line_blank
          | VTextRectangle rect =>
              let! o := update_text_rectangle md d ds rect in
              match o with
              | Some rect =>
                  Val (mkRtr (set_span (set_line (set_rect rs rect) 0) 0) (PsOn false)
                         m1 spans (Ok tt))
              | None => Val (mkRtr rs (PsOn false) m1 spans
                               (Err (SUnsupportedTagValue (display val))))
              end
          | VText t =>
              let spans := spans ++ [SpText rs t] in
              let! sn := chk8 md (rs_span rs + 1) in
              go (set_span rs sn) spans false
          | VHexadecimalCharacter hc =>
              if is_charb hc then
                let spans := spans ++ [SpHex rs (fstr4 hc)] in
                let! sn := chk8 md (rs_span rs + 1) in
                go (set_span rs sn) spans false
              else bad
          | _ => go rs spans line_blank
          end
      end
  end.

(** render.rs 726-747: the loop of [check_justification]. *)
Fixpoint check_just_loop (spans : list Span) (jp : JustificationPage)
    (jl : JustificationLine) (ln : Z) : result unit SyntaxError :=
  match spans with
  | [] => Ok tt
  | s :: r =>
      let st := span_state s in
      if (jp_num (rs_jp st) <? jp_num jp)
         || (jp_eqb (rs_jp st) jp && (rs_line st =? ln) && (jl_num (rs_jl st) <? jl_num jl))
      then Err STagConflict
      else check_just_loop r (rs_jp st) (rs_jl st) (rs_line st)
  end.
Definition check_justification (spans : list Span) : result unit SyntaxError :=
  check_just_loop spans JpOther JlOther 0.

(** render.rs 795-813: the loop of [offset_horiz] over the matching spans. *)
Fixpoint offset_horiz_loop (md : mode) (fonts : FontTable) (rs : RenderState)
    (spans : list Span) (prev : option Span) (before after : Z)
  : M (result (Z * Z) SyntaxError) :=
  match spans with
  | [] => Val (Ok (before, after))
  | span :: r =>
      let? ba :=
        (match prev with
         | Some ps =>
             let? w := Val (char_spacing_between span ps fonts) in
             if rs_span (span_state span) <=? rs_span rs then
               let! b := chk16 md (before + w) in Val (Ok (b, after))
             else
               let! a := chk16 md (after + w) in Val (Ok (before, a))
         | None => Val (Ok (before, after))
         end) in
      let '(before, after) := ba in
      let? w := span_width md span fonts in
      if rs_span (span_state span) <? rs_span rs then
        let! b := chk16 md (before + w) in
        offset_horiz_loop md fonts rs r (Some span) b after
      else
        let! a := chk16 md (after + w) in
        offset_horiz_loop md fonts rs r (Some span) before a
  end.

(** render.rs 786-819: [offset_horiz]. *)
Definition offset_horiz (md : mode) (d : Dms) (spans : list Span) (ts : Span)
  : M (result (Z * Z) SyntaxError) :=
  let rs := span_state ts in
  let? ba := offset_horiz_loop md (d_fonts d) rs
               (filter (fun s => matches_span rs (span_state s)) spans) None 0 0 in
  let '(before, after) := ba in
  let! t := chk16 md (before + after) in
  Val (if t <=? rwidth (rs_rect rs) then Ok (before, after) else Err STextTooBig).

(** render.rs 759-764: [span_x_left]. *)
Definition span_x_left (md : mode) (d : Dms) (spans : list Span) (s : Span)
  : M (result Z SyntaxError) :=
  let! lft := chk16 md (rx (rs_rect (span_state s)) - 1) in
  let? ba := offset_horiz md d spans s in
  let! x := chk16 md (lft + fst ba) in
  Val (Ok x).

(** render.rs 766-776: [span_x_center]. *)
Definition span_x_center (md : mode) (d : Dms) (spans : list Span) (s : Span)
  : M (result Z SyntaxError) :=
  let! lft := chk16 md (rx (rs_rect (span_state s)) - 1) in
  let w := rwidth (rs_rect (span_state s)) in
  let? ba := offset_horiz md d spans s in
  let '(before, after) := ba in
  let! a := chk16 md (w - before) in
  let! a := chk16 md (a - after) in
  let offset := a / 2 in
  let! x := chk16 md (lft + offset) in
  let! x := chk16 md (x + before) in
  let cw := r_char_width d in
  let! x := chk16 md ((x / cw) * cw) in
  Val (Ok x).

(** render.rs 778-784: [span_x_right]. *)
Definition span_x_right (md : mode) (d : Dms) (spans : list Span) (s : Span)
  : M (result Z SyntaxError) :=
  let! lft := chk16 md (rx (rs_rect (span_state s)) - 1) in
  let w := rwidth (rs_rect (span_state s)) in
  let? ba := offset_horiz md d spans s in
  let! x := chk16 md (lft + w) in
  let! x := chk16 md (x - snd ba) in
  Val (Ok x).

(** render.rs 749-757: [span_x]. *)
Definition span_x (md : mode) (d : Dms) (spans : list Span) (s : Span)
  : M (result Z SyntaxError) :=
  match rs_jl (span_state s) with
  | JlLeft => span_x_left md d spans s
  | JlCenter => span_x_center md d spans s
  | JlRight => span_x_right md d spans s
  | _ => Panic
  end.

(** [lines[ln].combine(&line)] *)
Fixpoint combine_at (lines : list TextLine) (ln : nat) (l : TextLine) : list TextLine :=
  match lines, ln with
  | [], _ => []
  | x :: r, O => combine x l :: r
  | x :: r, S n => x :: combine_at r n l
  end.

(** render.rs 873-885: collect the lines of the matching spans. *)
Fixpoint collect_lines (fonts : FontTable) (spans : list Span) (lines : list TextLine)
  : result (list TextLine) SyntaxError :=
  match spans with
  | [] => Ok lines
  | s :: r =>
      match span_height s fonts with
      | Err e => Err e
      | Ok h =>
          match span_font_spacing s fonts with
          | Err e => Err e
          | Ok fs =>
              let line := mkLine h fs (span_line_spacing s) in
              let ln := rs_line (span_state s) in
              if Z.of_nat (List.length lines) <=? ln
              then collect_lines fonts r (lines ++ [line])
              else collect_lines fonts r (combine_at lines (Z.to_nat ln) line)
          end
      end
  end.

(** render.rs 889-907: sum the heights; [prev] is [lines[ln - 1]] if [ln > 0]. *)
Fixpoint offset_vert_loop (md : mode) (full : bool) (sln : Z) (lines : list TextLine)
    (prev : option TextLine) (ln above below : Z) : M (Z * Z) :=
  match lines with
  | [] => Val (above, below)
  | line :: r =>
      let! ab :=
        (match prev with
         | Some p =>
             if full then
               let h := line_spacing line p in
               if ln <=? sln then let! a := chk16 md (above + h) in Val (a, below)
               else let! b := chk16 md (below + h) in Val (above, b)
             else Val (above, below)
         | None => Val (above, below)
         end) in
      let '(above, below) := ab in
      let h := tl_height line in
      if ln <=? sln then
        let! a := chk16 md (above + h) in
        offset_vert_loop md full sln r (Some line) (ln + 1) a below
      else
        let! b := chk16 md (below + h) in
        offset_vert_loop md full sln r (Some line) (ln + 1) above b
  end.

(** render.rs 866-913: [offset_vert]. *)
Definition offset_vert (md : mode) (d : Dms) (spans : list Span) (ts : Span)
  : M (result (Z * Z) SyntaxError) :=
  let rs := span_state ts in
  let? lines := Val (collect_lines (d_fonts d)
                       (filter (fun s => matches_line rs (span_state s)) spans) []) in
  let! ab := offset_vert_loop md (char_height d =? 0) (rs_line rs) lines None 0 0 0 in
  let '(above, below) := ab in
  let! t := chk16 md (above + below) in
  Val (if t <=? rheight (rs_rect rs) then Ok (above, below) else Err STextTooBig).

(** render.rs 839-844: [baseline_top]. *)
Definition baseline_top (md : mode) (d : Dms) (spans : list Span) (s : Span)
  : M (result Z SyntaxError) :=
  let! top := chk16 md (ry (rs_rect (span_state s)) - 1) in
  let? ab := offset_vert md d spans s in
  let! y := chk16 md (top + fst ab) in
  Val (Ok y).

(** render.rs 846-856: [baseline_middle]. *)
Definition baseline_middle (md : mode) (d : Dms) (spans : list Span) (s : Span)
  : M (result Z SyntaxError) :=
  let! top := chk16 md (ry (rs_rect (span_state s)) - 1) in
  let h := rheight (rs_rect (span_state s)) in
  let? ab := offset_vert md d spans s in
  let '(above, below) := ab in
  let! a := chk16 md (h - above) in
  let! a := chk16 md (a - below) in
  let offset := a / 2 in
  let! y := chk16 md (top + offset) in
  let! y := chk16 md (y + above) in
  let ch := r_char_height d in
  let! y := chk16 md ((y / ch) * ch) in
  Val (Ok y).

(** render.rs 858-864: [baseline_bottom]. *)
Definition baseline_bottom (md : mode) (d : Dms) (spans : list Span) (s : Span)
  : M (result Z SyntaxError) :=
  let! top := chk16 md (ry (rs_rect (span_state s)) - 1) in
  let h := rheight (rs_rect (span_state s)) in
  let? ab := offset_vert md d spans s in
  let! y := chk16 md (top + h) in
  let! y := chk16 md (y - snd ab) in
  Val (Ok y).

(** render.rs 829-837: [baseline]. *)
Definition baseline (md : mode) (d : Dms) (spans : list Span) (s : Span)
  : M (result Z SyntaxError) :=
  match rs_jp (span_state s) with
  | JpTop => baseline_top md d spans s
  | JpMiddle => baseline_middle md d spans s
  | JpBottom => baseline_bottom md d spans s
  | _ => Panic
  end.

(** render.rs 821-827: [span_y] (the subtraction overflows exactly when the
    [debug_assert!] fails). *)
Definition span_y (md : mode) (d : Dms) (spans : list Span) (s : Span)
  : M (result Z SyntaxError) :=
  let? b := baseline md d spans s in
  let? h := Val (span_height s (d_fonts d)) in
  let! y := chk16 md (b - h) in
  Val (Ok y).

(** render.rs 717-722: the loop of [render_text_spans]; [all] is [self.spans]. *)
Fixpoint render_spans_loop (md : mode) (d : Dms) (all todo : list Span)
    (raster : Raster rgb) : M (result (Raster rgb) SyntaxError) :=
  match todo with
  | [] => Val (Ok raster)
  | s :: r =>
      let? x := span_x md d all s in
      let? y := span_y md d all s in
      let? font := Val (rs_get_font (span_state s) (d_fonts d)) in
      let? raster := span_render_text md s raster font x y in
      render_spans_loop md d all r raster
  end.

(** render.rs 714-724: [render_text_spans]. *)
Definition render_text_spans (md : mode) (d : Dms) (spans : list Span)
    (raster : Raster rgb) : M (result (Raster rgb) SyntaxError) :=
  let? _ := Val (check_justification spans) in
  render_spans_loop md d spans spans raster.

(** render.rs 561-689: [render_text_rectangle]. *)
Definition render_text_rectangle (md : mode) (d : Dms) (p : Pages) (raster : Raster rgb)
  : M (Pages * result (Raster rgb) SyntaxError) :=
  let page_off := 0 <? rs_off_time (p_rs p) in
  let! e := rtr_loop md d (p_default p) page_off (items md (p_values p)) (p_values p)
              (p_rs p) [] true in
  let p' := mkPages (p_default p) (e_rs e) (e_state e) (e_values e) (e_spans e) in
  match e_res e with
  | Err er => Val (p', Err er)
  | Ok _ =>
      let! r := render_text_spans md d (e_spans e) raster in
      Val (p', r)
  end.

(** render.rs 446-453: the loop of [render_on_page].  [n] is
    [n_text_rectangles]; the loop returns an error when it exceeds 50, so
    51 rounds always suffice (no fuel is ever exhausted). *)
Fixpoint page_loop (md : mode) (d : Dms) (fuel : nat) (n : Z) (p : Pages)
    (raster : Raster rgb) : M (Pages * result (Raster rgb) SyntaxError) :=
  match fuel with
  | O => Hang
  | S f =>
      match p_state p with
      | PsOn false =>
          let! g := render_graphics md d p raster in
          match g with
          | Err e => Val (p, Err e)
          | Ok raster =>
              let! pr := render_text_rectangle md d p raster in
              match pr with
              | (p, Err e) => Val (p, Err e)
              | (p, Ok raster) =>
                  let n := n + 1 in
                  if MAX_TEXT_RECTANGLES <? n
                  then Val (p, Err (SOther (lit "Too many text rectangles")))
                  else page_loop md d f n p raster
              end
          end
      | _ => Val (p, Ok raster)
      end
  end.

(** render.rs 438-458: [render_on_page]. *)
Definition render_on_page (md : mode) (d : Dms) (p : Pages)
  : M (Pages * result Page SyntaxError) :=
  let vs := items md (p_values p) in
  let! c := check_unsupported d vs in
  match c with
  | Err e => Val (p, Err e)
  | Ok _ =>
      let! ur := update_page_state (p_default p) vs (p_rs p) in
      let '(rs, u) := ur in
      match u with
      | Err e => Val (mkPages (p_default p) rs (p_state p) (p_values p) (p_spans p), Err e)
      | Ok _ =>
          let raster := build_raster rs in
          let p := mkPages (p_default p) rs (PsOn false) (p_values p) (p_spans p) in
          let! pr := page_loop md d 52 0 p raster in
          match pr with
          | (p, Err e) => Val (p, Err e)
          | (p, Ok raster) => Val (p, Ok (mkPage raster (rs_on_time (p_rs p))))
          end
      end
  end.

(** render.rs 921-927: [Pages::next]. *)
Definition pages_next (md : mode) (d : Dms) (p : Pages)
  : M (option (result Page SyntaxError) * Pages) :=
  match p_state p with
  | PsOn _ => let! r := render_on_page md d p in Val (Some (snd r), fst r)
  | PsOff _ => let '(pg, p') := render_off_page p in Val (Some (Ok pg), p')
  | PsDone => Val (None, p)
  end.

(** The first [n] items that the [Pages] iterator yields (stopping at [None]). *)
Fixpoint pages_take (md : mode) (d : Dms) (n : nat) (p : Pages)
  : M (list (result Page SyntaxError)) :=
  match n with
  | O => Val []
  | S k =>
      let! r := pages_next md d p in
      match r with
      | (None, _) => Val []
      | (Some x, p') => let! l := pages_take md d k p' in Val (x :: l)
      end
  end.
