(** Model of src/dms/pattern.rs. *)

From Coq Require Import String.
From Verif Require Import Base Str Multi Color Font Config Sign.

(** Derived [PartialEq] on [Value]. *)
Definition value_eq_dec (a b : Value) : {a = b} + {a <> b}.
Proof. repeat decide equality. Defined.

(** pattern.rs 8-15: [PatValue]. *)
Inductive PatValue :=
| PVal (v : Value)
| PFill (r : Rectangle) (font_num : Z).

(** pattern.rs 17-31: [PatIter] (the sign is passed separately). *)
Record PatIter := mkPat {
  p_pattern : MultiStr; p_value : option Value; p_font_num : Z;
  p_rect_font : option (Rectangle * Z); p_end : bool }.

(** pattern.rs 53-65: [PatIter::new]. *)
Definition pat_new (d : Dms) (ms : str) : PatIter :=
  let fnum := default_font (d_multi_cfg d) in
  mkPat (ms_new ms) None fnum (Some (full_rect d, fnum)) false.

(** multi.rs 1419-1421: [MultiStr::next]. *)
Definition ms_next (md : mode) (m : MultiStr)
  : M (option (result Value SyntaxError) * MultiStr) :=
  let! p := next_slice md m in
  match p with
  | (None, m') => Val (None, m')
  | (Some s, m') => let! r := try_from s in Val (Some r, m')
  end.

(** pattern.rs 236-273: [PatIter::next] once a value has been fetched; [pat]
    is the advanced iterator. *)
Definition pat_step (d : Dms) (st : PatIter) (pat : MultiStr) (value : Value)
    (at_end : bool) : option (result PatValue SyntaxError) * PatIter :=
  let fnum := p_font_num st in
  let rf := p_rect_font st in
  let unsupported :=
    match value_tag value with
    | Some tag => negb (contains_tag (supported_multi_tags (d_multi_cfg d)) tag)
    | None => false
    end in
  if unsupported then
    (Some (Err (SUnsupportedTag (display value))), mkPat pat None fnum rf at_end)
  else
    let last (fnum : Z) (rf : option (Rectangle * Z)) :=
      (if at_end then None else Some (Ok (PVal value)), mkPat pat None fnum rf at_end) in
    match value with
    | VFont None => last (default_font (d_multi_cfg d)) rf
    | VFont (Some (n, _)) => last n rf
    | VText _ | VNewLine _ => last fnum None
    | VNewPage =>
        match rf with
        | Some (rect, font) =>
            (Some (Ok (PFill rect font)),
             mkPat pat (Some value) fnum (Some (full_rect d, fnum)) at_end)
        | None => last fnum (Some (full_rect d, fnum))
        end
    | VTextRectangle tr =>
        let rf' := Some (extend_width_height tr (full_rect d), fnum) in
        match rf with
        | Some (rect, font) =>
            if negb (rect_eqb rect (full_rect d)) then
              (Some (Ok (PFill rect font)), mkPat pat (Some value) fnum rf' at_end)
            else last fnum rf'
        | None => last fnum rf'
        end
    | _ => last fnum rf
    end.

(** pattern.rs 220-274: [PatIter::next]. *)
Definition pat_next (md : mode) (d : Dms) (st : PatIter)
  : M (option (result PatValue SyntaxError) * PatIter) :=
  if p_end st then Val (None, st)
  else
    match p_value st with
    | Some v =>
        Val (Some (Ok (PVal v)),
             mkPat (p_pattern st) None (p_font_num st) (p_rect_font st) false)
    | None =>
        let! nx := ms_next md (p_pattern st) in
        match nx with
        | (Some (Ok v), pat) => Val (pat_step d st pat v false)
        | (Some (Err e), pat) =>
            Val (Some (Err e), mkPat pat None (p_font_num st) (p_rect_font st) false)
        | (None, pat) => Val (pat_step d st pat VNewPage true)
        end
    end.

(** The items of a [PatIter], as delayed outcomes (each value yields at most
    two items; running out of fuel would be an endless loop). *)
Fixpoint pat_items_fuel (md : mode) (d : Dms) (fuel : nat) (st : PatIter)
  : list (M (result PatValue SyntaxError)) :=
  match fuel with
  | O => [Hang]
  | S f =>
      match pat_next md d st with
      | Val (None, _) => []
      | Val (Some r, st') => Val r :: pat_items_fuel md d f st'
      | Panic => [Panic]
      | Hang => [Hang]
      end
  end.

Definition pat_items (md : mode) (d : Dms) (ms : str) :=
  pat_items_fuel md d (2 * List.length ms + 4) (pat_new d ms).

(** pattern.rs 102-104: [n] copies of a line. *)
Definition push_lines (n : Z) (x : Z * Z * Z) : list (Z * Z * Z) := repeat x (Z.to_nat n).

(** pattern.rs 88-105: the loop of [widths]; [rect_num] is a u8 counter. *)
Fixpoint widths_loop (md : mode) (d : Dms) (vs : list (M (result PatValue SyntaxError)))
    (rect_num : Z) (lines : list (Z * Z * Z)) : M (list (Z * Z * Z)) :=
  match vs with
  | [] => Val lines
  | m :: r =>
      let! x := m in
      match x with
      | Ok (PFill rect font_num) =>
          let rn := rect_num in
          let! rect_num := chk8 md (rect_num + 1) in
          let! n := rect_lines d rect font_num in
          widths_loop md d r rect_num (lines ++ push_lines n (rwidth rect, font_num, rn))
      | _ => widths_loop md d r rect_num lines
      end
  end.

(** pattern.rs 79-107: [MessagePattern::widths], collected. *)
Definition pat_widths (md : mode) (d : Dms) (ms : str) : M (list (Z * Z * Z)) :=
  widths_loop md d (pat_items md d ms) 0 [].

(** pattern.rs 118-128: fill up to [n] lines; [first] is [i == 0]. *)
Fixpoint fill_lines (n : nat) (first : bool) (lines : list str) (ms : str)
  : str * list str :=
  match n with
  | O => (ms, lines)
  | S k =>
      match lines with
      | line :: rest =>
          fill_lines k false rest ((if first then ms else ms ++ lit "[nl]") ++ line)
      | [] => (ms, [])
      end
  end.

(** pattern.rs 113-137: the loop of [fill]. *)
Fixpoint fill_loop (d : Dms) (vs : list (M (result PatValue SyntaxError)))
    (font_val : option (option (Z * option Z))) (lines : list str) (ms : str) : M str :=
  match vs with
  | [] => Val ms
  | m :: r =>
      let! x := m in
      match x with
      | Ok (PVal (VFont fv)) => fill_loop d r (Some fv) lines ms
      | Ok (PVal val) => fill_loop d r font_val lines (ms ++ display val)
      | Ok (PFill rect font_num) =>
          let! n := rect_lines d rect font_num in
          let '(ms, lines) := fill_lines (Z.to_nat n) true lines ms in
          let ms := match font_val with
                    | Some fv => ms ++ display (VFont fv)
                    | None => ms
                    end in
          fill_loop d r None lines ms
      | Err _ => Val []
      end
  end.

(** pattern.rs 109-139: [MessagePattern::fill]. *)
Definition pat_fill (md : mode) (d : Dms) (ms : str) (lines : list str) : M str :=
  fill_loop d (pat_items md d ms) None lines [].

(** pattern.rs 156-177: the loop inside a fillable rectangle.  Returns the
    lines, the lines left in the rectangle, [before] and [after]. *)
Fixpoint rect_scan (md : mode) (fuel : nat) (n_lines : Z) (values : MultiStr)
    (before after : str) (lines : list str) : M (list str * Z * str * str) :=
  match fuel with
  | O => Hang
  | S f =>
      let! nx := ms_next md values in
      let '(value, values) := nx in
      match value with
      | Some (Ok (VText _)) | Some (Ok (VColorForeground _))
      | Some (Ok (VJustificationLine _)) | Some (Ok (VSpacingCharacter _))
      | Some (Ok VSpacingCharacterEnd) =>
          let! sp := ms_split values in
          let '(before, after) := sp in
          rect_scan md f n_lines values before after lines
      | Some (Ok (VNewLine _)) =>
          let '(lines, n_lines) :=
            if 0 <? n_lines then (lines ++ [before], n_lines - 1) else (lines, n_lines) in
          let! sp := ms_split values in
          let ms := snd sp in
          let values := ms_new ms in
          let! sp := ms_split values in
          let '(before, after) := sp in
          rect_scan md f n_lines values before after lines
      | _ => Val (lines, n_lines, before, after)
      end
  end.

(** pattern.rs 179-183: pad the remaining lines. *)
Fixpoint pad_lines (n : nat) (before : str) : list str :=
  match n with O => [] | S k => before :: pad_lines k [] end.

(** pattern.rs 191-196: the next value that is not a font tag. *)
Fixpoint skip_fonts (md : mode) (fuel : nat) (values : MultiStr)
  : M (option (result Value SyntaxError) * MultiStr) :=
  match fuel with
  | O => Hang
  | S f =>
      let! nx := ms_next md values in
      match nx with
      | (Some (Ok (VFont _)), values) => skip_fonts md f values
      | _ => Val nx
      end
  end.

(** pattern.rs 150-210: the loop of [lines]. *)
Fixpoint lines_loop (md : mode) (d : Dms) (vs : list (M (result PatValue SyntaxError)))
    (ms : str) (lines : list str) : M (list str) :=
  match vs with
  | [] => Val lines
  | m :: r =>
      let! x := m in
      match x with
      | Err _ => lines_loop md d r ms lines
      | Ok (PFill rect font_num) =>
          let! n_lines := rect_lines d rect font_num in
          let values := ms_new ms in
          let! sp := ms_split values in
          let '(before, after) := sp in
          let! res := rect_scan md (S (List.length ms)) n_lines values before after lines in
          let '(lines, n_lines, before, after) := res in
          lines_loop md d r after (lines ++ pad_lines (Z.to_nat n_lines) before)
      | Ok (PVal (VFont _)) => lines_loop md d r ms lines
      | Ok (PVal val) =>
          let! nx := skip_fonts md (S (List.length ms)) (ms_new ms) in
          let '(value, values) := nx in
          let matched :=
            match value with
            | Some (Ok v) => if value_eq_dec v val then true else false
            | None => if value_eq_dec VNewPage val then true else false
            | Some (Err _) => false
            end in
          if matched then
            let! sp := ms_split values in
            lines_loop md d r (snd sp) lines
          else Val []
      end
  end.

(** pattern.rs 141-212: [MessagePattern::lines], collected. *)
Definition pat_lines (md : mode) (d : Dms) (pattern ms : str) : M (list str) :=
  lines_loop md d (pat_items md d pattern) ms [].
