(** Model of src/dms/multi.rs: values, printing, parsing, normalising. *)

From Coq Require Import String.
From Verif Require Import Base Str.

(** multi.rs 19-88: [Tag], with its bit in [BitFlags<Tag>]. *)
Inductive Tag :=
| TCb | TCf | TFl | TFo | TG | THc | TJl | TJp | TMs | TMv | TNl | TNp | TPt
| TSc | TF1 | TF2 | TF3 | TF4 | TF5 | TF6 | TF7 | TF8 | TF9 | TF10 | TF11
| TF12 | TF13 | TTr | TCr | TPb.

(** multi.rs 26-88 (discriminants). *)
Definition tag_bit (t : Tag) : Z :=
  match t with
  | TCb => 0 | TCf => 1 | TFl => 2 | TFo => 3 | TG => 4 | THc => 5 | TJl => 6
  | TJp => 7 | TMs => 8 | TMv => 9 | TNl => 10 | TNp => 11 | TPt => 12
  | TSc => 13 | TF1 => 14 | TF2 => 15 | TF3 => 16 | TF4 => 17 | TF5 => 18
  | TF6 => 19 | TF7 => 20 | TF8 => 21 | TF9 => 22 | TF10 => 23 | TF11 => 24
  | TF12 => 25 | TF13 => 26 | TTr => 27 | TCr => 28 | TPb => 29
  end.

(** [enumflags2::BitFlags::contains] for one tag. *)
Definition contains_tag (flags : Z) (t : Tag) : bool := Z.testbit flags (tag_bit t).

(** multi.rs 119-126: [Color]. *)
Inductive Color :=
| Legacy (v : Z)
| Rgb (r g b : Z).

(** multi.rs 143-154: [Rectangle]. *)
Record Rectangle := mkRect { rx : Z; ry : Z; rwidth : Z; rheight : Z }.

(** multi.rs 156-171: [JustificationLine]. *)
Inductive JustificationLine := JlOther | JlLeft | JlCenter | JlRight | JlFull.

(** multi.rs 173-186: [JustificationPage]. *)
Inductive JustificationPage := JpOther | JpTop | JpMiddle | JpBottom.

(** multi.rs 188-195: [FlashOrder]. *)
Inductive FlashOrder := OnOff | OffOn.

(** multi.rs 197-204: [MovingTextMode]. *)
Inductive MovingTextMode := Circular | Linear (d : Z).

(** multi.rs 206-213: [MovingTextDirection]. *)
Inductive MovingTextDirection := MvLeft | MvRight.

(** multi.rs 215-321: [Value]. *)
Inductive Value :=
| VColorBackground (c : option Color)
| VColorForeground (c : option Color)
| VColorRectangle (r : Rectangle) (c : Color)
| VField (id : Z) (w : option Z)
| VFlash (o : FlashOrder) (a b : option Z)
| VFlashEnd
| VFont (f : option (Z * option Z))
| VGraphic (n : Z) (p : option (Z * Z * option Z))
| VHexadecimalCharacter (c : Z)
| VJustificationLine (j : option JustificationLine)
| VJustificationPage (j : option JustificationPage)
| VManufacturerSpecific (i : Z) (s : option str)
| VManufacturerSpecificEnd (i : Z) (s : option str)
| VMovingText (m : MovingTextMode) (d : MovingTextDirection) (w s r : Z) (t : str)
| VNewLine (x : option Z)
| VNewPage
| VPageBackground (c : option Color)
| VPageTime (on off : option Z)
| VSpacingCharacter (s : Z)
| VSpacingCharacterEnd
| VText (t : str)
| VTextRectangle (r : Rectangle).

(** multi.rs 323-369: [SyntaxError]. *)
Inductive SyntaxError :=
| SOther (msg : str)
| SUnsupportedTag (t : str)
| SUnsupportedTagValue (t : str)
| STextTooBig
| SFontNotDefined (n : Z)
| SCharacterNotDefined (c : Z)
| SFieldDeviceNotExist
| SFieldDeviceError
| SFlashRegionError
| STagConflict
| STooManyPages
| SFontVersionID
| SGraphicID
| SGraphicNotDefined (n : Z).

(** multi.rs 374-382: [MultiStr]. *)
Record MultiStr := mkMS { ms_str : str; ms_off : Z }.

(** Derived [PartialEq] on the types compared by [normalize]. *)
Definition color_eqb (a b : Color) : bool :=
  match a, b with
  | Legacy x, Legacy y => x =? y
  | Rgb r g b, Rgb r' g' b' => (r =? r') && (g =? g') && (b =? b')
  | _, _ => false
  end.

(** multi.rs 158-171: discriminants of [JustificationLine]; the derived order. *)
Definition jl_num (j : JustificationLine) : Z :=
  match j with JlOther => 1 | JlLeft => 2 | JlCenter => 3 | JlRight => 4 | JlFull => 5 end.

(** multi.rs 175-186: discriminants of [JustificationPage]; the derived order. *)
Definition jp_num (j : JustificationPage) : Z :=
  match j with JpOther => 1 | JpTop => 2 | JpMiddle => 3 | JpBottom => 4 end.

Definition jl_eqb (a b : JustificationLine) : bool := jl_num a =? jl_num b.
Definition jp_eqb (a b : JustificationPage) : bool := jp_num a =? jp_num b.

Definition font_eqb (a b : Z * option Z) : bool :=
  (fst a =? fst b) && option_eqb Z.eqb (snd a) (snd b).

(** multi.rs 446-453: [Display for Color]. *)
Definition show_color (c : Color) : str :=
  match c with
  | Legacy v => show v
  | Rgb r g b => show r ++ [ch_comma] ++ show g ++ [ch_comma] ++ show b
  end.

(** multi.rs 598-602: [Display for Rectangle]. *)
Definition show_rect (r : Rectangle) : str :=
  show (rx r) ++ [ch_comma] ++ show (ry r) ++ [ch_comma] ++ show (rwidth r)
  ++ [ch_comma] ++ show (rheight r).

(** multi.rs 661-665, 682-686: [Display] of justifications. *)
Definition show_jl (j : JustificationLine) : str := show (jl_num j).
Definition show_jp (j : JustificationPage) : str := show (jp_num j).

(** multi.rs 702-709 *)
Definition show_mv_mode (m : MovingTextMode) : str :=
  match m with Circular => lit "c" | Linear x => lit "l" ++ show x end.

(** multi.rs 711-718 *)
Definition show_mv_dir (d : MovingTextDirection) : str :=
  match d with MvLeft => lit "l" | MvRight => lit "r" end.

(** multi.rs 720-796: [Display for Value]. *)
Definition display (v : Value) : str :=
  match v with
  | VColorBackground None => lit "[cb]"
  | VColorBackground (Some c) => lit "[cb" ++ show_color c ++ lit "]"
  | VColorForeground None => lit "[cf]"
  | VColorForeground (Some c) => lit "[cf" ++ show_color c ++ lit "]"
  | VColorRectangle r c => lit "[cr" ++ show_rect r ++ lit "," ++ show_color c ++ lit "]"
  | VField i (Some w) => lit "[f" ++ show i ++ lit "," ++ show w ++ lit "]"
  | VField i None => lit "[f" ++ show i ++ lit "]"
  | VFlash OnOff (Some a) (Some b) => lit "[flt" ++ show a ++ lit "o" ++ show b ++ lit "]"
  | VFlash OnOff (Some a) None => lit "[flt" ++ show a ++ lit "o]"
  | VFlash OnOff None (Some b) => lit "[flto" ++ show b ++ lit "]"
  | VFlash OnOff None None => lit "[flto]"
  | VFlash OffOn (Some a) (Some b) => lit "[flo" ++ show a ++ lit "t" ++ show b ++ lit "]"
  | VFlash OffOn (Some a) None => lit "[flo" ++ show a ++ lit "t]"
  | VFlash OffOn None (Some b) => lit "[flot" ++ show b ++ lit "]"
  | VFlash OffOn None None => lit "[flot]"
  | VFlashEnd => lit "[/fl]"
  | VFont None => lit "[fo]"
  | VFont (Some (num, None)) => lit "[fo" ++ show num ++ lit "]"
  | VFont (Some (num, Some c)) => lit "[fo" ++ show num ++ lit "," ++ show_hex4 c ++ lit "]"
  | VGraphic num None => lit "[g" ++ show num ++ lit "]"
  | VGraphic num (Some (x, y, None)) =>
      lit "[g" ++ show num ++ lit "," ++ show x ++ lit "," ++ show y ++ lit "]"
  | VGraphic num (Some (x, y, Some c)) =>
      lit "[g" ++ show num ++ lit "," ++ show x ++ lit "," ++ show y ++ lit ","
      ++ show_hex4 c ++ lit "]"
  | VHexadecimalCharacter c => lit "[hc" ++ show c ++ lit "]"
  | VJustificationLine (Some j) => lit "[jl" ++ show_jl j ++ lit "]"
  | VJustificationLine None => lit "[jl]"
  | VJustificationPage (Some j) => lit "[jp" ++ show_jp j ++ lit "]"
  | VJustificationPage None => lit "[jp]"
  | VManufacturerSpecific i (Some s) => lit "[ms" ++ show i ++ lit "," ++ s ++ lit "]"
  | VManufacturerSpecific i None => lit "[ms" ++ show i ++ lit "]"
  | VManufacturerSpecificEnd i (Some s) => lit "[/ms" ++ show i ++ lit "," ++ s ++ lit "]"
  | VManufacturerSpecificEnd i None => lit "[/ms" ++ show i ++ lit "]"
  | VMovingText m d w s r t =>
      lit "[mv" ++ show_mv_mode m ++ show_mv_dir d ++ show w ++ lit "," ++ show s
      ++ lit "," ++ show r ++ lit "," ++ t ++ lit "]"
  | VNewLine (Some x) => lit "[nl" ++ show x ++ lit "]"
  | VNewLine None => lit "[nl]"
  | VNewPage => lit "[np]"
  | VPageBackground (Some c) => lit "[pb" ++ show_color c ++ lit "]"
  | VPageBackground None => lit "[pb]"
  | VPageTime (Some x) (Some y) => lit "[pt" ++ show x ++ lit "o" ++ show y ++ lit "]"
  | VPageTime (Some x) None => lit "[pt" ++ show x ++ lit "o]"
  | VPageTime None (Some y) => lit "[pto" ++ show y ++ lit "]"
  | VPageTime None None => lit "[pto]"
  | VSpacingCharacter s => lit "[sc" ++ show s ++ lit "]"
  | VSpacingCharacterEnd => lit "[/sc]"
  | VText t => replace ch_rb (lit "]]") (replace ch_lb (lit "[[") t)
  | VTextRectangle r => lit "[tr" ++ show_rect r ++ lit "]"
  end.

(** multi.rs 829-869: [Value::tag]. *)
Definition value_tag (v : Value) : option Tag :=
  match v with
  | VColorBackground _ => Some TCb
  | VColorForeground _ => Some TCf
  | VColorRectangle _ _ => Some TCr
  | VField id _ =>
      if id =? 1 then Some TF1 else if id =? 2 then Some TF2
      else if id =? 3 then Some TF3 else if id =? 4 then Some TF4
      else if id =? 5 then Some TF5 else if id =? 6 then Some TF6
      else if id =? 7 then Some TF7 else if id =? 8 then Some TF8
      else if id =? 9 then Some TF9 else if id =? 10 then Some TF10
      else if id =? 11 then Some TF11 else if id =? 12 then Some TF12
      else if id =? 13 then Some TF13 else None
  | VFlash _ _ _ => Some TFl
  | VFlashEnd => Some TFl
  | VFont _ => Some TFo
  | VGraphic _ _ => Some TG
  | VHexadecimalCharacter _ => Some THc
  | VJustificationLine _ => Some TJl
  | VJustificationPage _ => Some TJp
  | VManufacturerSpecific _ _ => Some TMs
  | VManufacturerSpecificEnd _ _ => Some TMs
  | VMovingText _ _ _ _ _ _ => Some TMv
  | VNewLine _ => Some TNl
  | VNewPage => Some TNp
  | VPageBackground _ => Some TPb
  | VPageTime _ _ => Some TPt
  | VSpacingCharacter _ => Some TSc
  | VSpacingCharacterEnd => Some TSc
  | VText _ => None
  | VTextRectangle _ => Some TTr
  end.

(** multi.rs 871-884: [Value::is_blank]. *)
Definition value_is_blank (v : Value) : bool :=
  match v with
  | VColorRectangle _ _ => false
  | VField _ _ => false
  | VGraphic _ _ => false
  | VHexadecimalCharacter _ => false
  | VManufacturerSpecific _ _ => false
  | VManufacturerSpecificEnd _ _ => false
  | VMovingText _ _ _ _ _ _ => false
  | VText txt => is_empty (trim txt)
  | _ => true
  end.

(** An iterator over string slices is the list of slices still to come;
    [next] pops it. *)
Definition next {A} (v : list A) : option A * list A :=
  match v with [] => (None, []) | x :: r => (Some x, r) end.

(** multi.rs 905-920: [parse_color]. *)
Definition parse_color (v : list str) : option Color :=
  let rgb := map parse_u8 v in
  let '(a, rgb) := next rgb in
  let '(b, rgb) := next rgb in
  let '(c, rgb) := next rgb in
  let '(d, _) := next rgb in
  match a, b, c, d with
  | Some (Some r), Some (Some g), Some (Some b), None => Some (Rgb r g b)
  | Some (Some n), None, _, _ => Some (Legacy n)
  | _, _, _, _ => None
  end.

(** multi.rs 922-939: [parse_rectangle]; returns the advanced iterator too. *)
Definition parse_rectangle (v : list str) : option Rectangle * list str :=
  let '(x, v) := next v in
  let '(y, v) := next v in
  let '(w, v) := next v in
  let '(h, v) := next v in
  (match x, y, w, h with
   | Some x, Some y, Some w, Some h =>
       match parse_u16 x, parse_u16 y, parse_u16 w, parse_u16 h with
       | Some x, Some y, Some w, Some h =>
           if (0 <? x) && (0 <? y) then Some (mkRect x y w h) else None
       | _, _, _, _ => None
       end
   | _, _, _, _ => None
   end, v).

(** multi.rs 941-953: [parse_int]; [p] is the integer type's parser. *)
Definition parse_int (p : str -> option Z) (v : list str) : option Z * list str :=
  let '(s, v) := next v in
  (match s with Some s => p s | None => None end, v).

(** multi.rs 955-969: [parse_optional]; the outer [None] is [Err]. *)
Definition parse_optional (p : str -> option Z) (v : list str)
  : option (option Z) * list str :=
  let '(s, v) := next v in
  (match s with
   | Some s => if negb (is_empty s)
               then match p s with Some i => Some (Some i) | None => None end
               else Some None
   | None => Some None
   end, v).

(** multi.rs 971-988: [parse_optional_99]; the outer [None] is [Err]. *)
Definition parse_optional_99 (v : list str) : option (option Z) * list str :=
  let '(s, v) := next v in
  (match s with
   | Some s =>
       if is_empty s then Some None
       else match parse_u8 s with
            | Some i => if i <=? 99 then Some (Some i) else None
            | None => None
            end
   | None => Some None
   end, v).

(** multi.rs 990-1005: [parse_nonzero]. *)
Definition parse_nonzero (p : str -> option Z) (v : list str) : option Z * list str :=
  let '(s, v) := next v in
  (match s with
   | Some s => match p s with
               | Some i => if negb (i =? 0) then Some i else None
               | None => None
               end
   | None => None
   end, v).

(** multi.rs 1007-1020: [parse_version_id]; the outer [None] is [Err]. *)
Definition parse_version_id (v : list str) : option (option Z) * list str :=
  let '(s, v) := next v in
  (match s with
   | Some s =>
       if len s =? 4
       then match parse_hex16 s with Some i => Some (Some i) | None => None end
       else None
   | None => Some None
   end, v).

(** multi.rs 1022-1034 *)
Definition parse_color_background (tag : str) : M (option Value) :=
  if 2 <? len tag then
    let! t := slice_from tag 2 in
    Val (match parse_u8 t with
         | Some n => Some (VColorBackground (Some (Legacy n)))
         | None => None
         end)
  else Val (Some (VColorBackground None)).

(** multi.rs 1036-1043 *)
Definition parse_page_background (tag : str) : M (option Value) :=
  if 2 <? len tag then
    let! t := slice_from tag 2 in
    Val (match parse_color (split_on is_comma t) with
         | Some c => Some (VPageBackground (Some c))
         | None => None
         end)
  else Val (Some (VPageBackground None)).

(** multi.rs 1045-1053 *)
Definition parse_color_foreground (tag : str) : M (option Value) :=
  if 2 <? len tag then
    let! t := slice_from tag 2 in
    Val (match parse_color (split_on is_comma t) with
         | Some c => Some (VColorForeground (Some c))
         | None => None
         end)
  else Val (Some (VColorForeground None)).

(** multi.rs 1055-1062 *)
Definition parse_color_rectangle (tag : str) : M (option Value) :=
  let! t := slice_from tag 2 in
  let vs := splitn 7 is_comma t in
  let '(r, vs) := parse_rectangle vs in
  Val (match r, parse_color vs with
       | Some r, Some c => Some (VColorRectangle r c)
       | _, _ => None
       end).

(** multi.rs 1064-1071 *)
Definition parse_field (tag : str) : M (option Value) :=
  let! t := slice_from tag 1 in
  let vs := splitn 2 is_comma t in
  let '(fid, vs) := parse_int parse_u8 vs in
  let '(w, _) := parse_optional parse_u8 vs in
  Val (match fid, w with
       | Some fid, Some w => if fid <? 14 then Some (VField fid w) else None
       | _, _ => None
       end).

(** multi.rs 1087-1093 *)
Definition parse_flash_on (v : str) : option Value :=
  let vs := splitn 2 is_o v in
  let '(t, vs) := parse_optional_99 vs in
  match t with
  | None => None
  | Some t =>
      let '(o, _) := parse_optional_99 vs in
      match o with
      | None => None
      | Some o => Some (VFlash OnOff t o)
      end
  end.

(** multi.rs 1095-1101 *)
Definition parse_flash_off (v : str) : option Value :=
  let vs := splitn 2 is_t v in
  let '(o, vs) := parse_optional_99 vs in
  match o with
  | None => None
  | Some o =>
      let '(t, _) := parse_optional_99 vs in
      match t with
      | None => None
      | Some t => Some (VFlash OffOn o t)
      end
  end.

(** multi.rs 1073-1085 *)
Definition parse_flash_time (tag : str) : M (option Value) :=
  if 2 <? len tag then
    let! v := slice_from tag 2 in
    let! h := slice_to v 1 in
    if str_eqb h (lit "t") || str_eqb h (lit "T") then
      let! w := slice_from v 1 in Val (parse_flash_on w)
    else if str_eqb h (lit "o") || str_eqb h (lit "O") then
      let! w := slice_from v 1 in Val (parse_flash_off w)
    else Val None
  else Val (Some (VFlash OnOff None None)).

(** multi.rs 1103-1110 *)
Definition parse_flash_end (tag : str) : M (option Value) :=
  Val (if len tag =? 3 then Some VFlashEnd else None).

(** multi.rs 1112-1123 *)
Definition parse_font (tag : str) : M (option Value) :=
  if 2 <? len tag then
    let! t := slice_from tag 2 in
    let vs := splitn 2 is_comma t in
    let '(n, vs) := parse_nonzero parse_u8 vs in
    let '(vid, _) := parse_version_id vs in
    Val (match n, vid with
         | Some n, Some vid => Some (VFont (Some (n, vid)))
         | _, _ => None
         end)
  else Val (Some (VFont None)).

(** multi.rs 1152-1161: [parse_xy]; [None] is [Err]. *)
Definition parse_xy (x y : str) : option (Z * Z) :=
  match parse_u16 x, parse_u16 y with
  | Some x, Some y => if (0 <? x) && (0 <? y) then Some (x, y) else None
  | _, _ => None
  end.

(** multi.rs 1140-1150: [parse_point]; the outer [None] is [Err]. *)
Definition parse_point (v : list str) : option (option (Z * Z)) * list str :=
  let '(x, v) := next v in
  let '(y, v) := next v in
  (match x, y with
   | Some x, Some y => match parse_xy x y with Some p => Some (Some p) | None => None end
   | Some _, None => None
   | _, _ => Some None
   end, v).

(** multi.rs 1125-1138 *)
Definition parse_graphic (tag : str) : M (option Value) :=
  let! t := slice_from tag 1 in
  let vs := splitn 4 is_comma t in
  let '(n, vs) := parse_nonzero parse_u8 vs in
  let '(p, vs) := parse_point vs in
  let '(vid, _) := parse_version_id vs in
  Val (match n, p, vid with
       | Some n, Some (Some (x, y)), Some vid => Some (VGraphic n (Some (x, y, vid)))
       | Some n, Some None, Some None => Some (VGraphic n None)
       | _, _, _ => None
       end).

(** multi.rs 1163-1169 *)
Definition parse_hexadecimal_character (tag : str) : M (option Value) :=
  let! t := slice_from tag 2 in
  Val (match parse_hex16 t with
       | Some c => Some (VHexadecimalCharacter c)
       | None => None
       end).

(** multi.rs 667-680 *)
Definition jl_new (v : str) : option JustificationLine :=
  if str_eqb v (lit "1") then Some JlOther
  else if str_eqb v (lit "2") then Some JlLeft
  else if str_eqb v (lit "3") then Some JlCenter
  else if str_eqb v (lit "4") then Some JlRight
  else if str_eqb v (lit "5") then Some JlFull
  else None.

(** multi.rs 688-700 *)
Definition jp_new (v : str) : option JustificationPage :=
  if str_eqb v (lit "1") then Some JpOther
  else if str_eqb v (lit "2") then Some JpTop
  else if str_eqb v (lit "3") then Some JpMiddle
  else if str_eqb v (lit "4") then Some JpBottom
  else None.

(** multi.rs 1171-1179 *)
Definition parse_justification_line (tag : str) : M (option Value) :=
  if 2 <? len tag then
    let! t := slice_from tag 2 in
    Val (match jl_new t with
         | Some j => Some (VJustificationLine (Some j))
         | None => None
         end)
  else Val (Some (VJustificationLine None)).

(** multi.rs 1181-1189 *)
Definition parse_justification_page (tag : str) : M (option Value) :=
  if 2 <? len tag then
    let! t := slice_from tag 2 in
    Val (match jp_new t with
         | Some j => Some (VJustificationPage (Some j))
         | None => None
         end)
  else Val (Some (VJustificationPage None)).

(** multi.rs 1191-1199 *)
Definition parse_manufacturer_specific (tag : str) : M (option Value) :=
  let! t := slice_from tag 2 in
  let vs := splitn 2 is_comma t in
  let '(m, vs) := parse_int parse_u32 vs in
  let '(t, _) := next vs in
  Val (match m, t with
       | Some m, Some t => Some (VManufacturerSpecific m (Some t))
       | Some m, None => Some (VManufacturerSpecific m None)
       | _, _ => None
       end).

(** multi.rs 1201-1209 *)
Definition parse_manufacturer_specific_end (tag : str) : M (option Value) :=
  let! t := slice_from tag 3 in
  let vs := splitn 2 is_comma t in
  let '(m, vs) := parse_int parse_u32 vs in
  let '(t, _) := next vs in
  Val (match m, t with
       | Some m, Some t => Some (VManufacturerSpecificEnd m (Some t))
       | Some m, None => Some (VManufacturerSpecificEnd m None)
       | _, _ => None
       end).

(** multi.rs 1260-1267 *)
Definition parse_moving_text_dir (d : option Z) : option MovingTextDirection :=
  match d with
  | Some c => if (c =? ch_l) || (c =? ch_L) then Some MvLeft
              else if (c =? ch_r) || (c =? ch_R) then Some MvRight
              else None
  | None => None
  end.

(** multi.rs 1239-1258 *)
Definition parse_moving_text_mode (tag : str) (mode : MovingTextMode)
  : M (option Value) :=
  if negb (is_empty tag) then
    let dir := parse_moving_text_dir (hd_error tag) in
    let! t := slice_from tag 1 in
    let vs := splitn 4 is_comma t in
    let '(width, vs) := parse_int parse_u16 vs in
    let '(s, vs) := parse_int parse_u8 vs in
    let '(r, vs) := parse_int parse_u8 vs in
    let '(text, _) := next vs in
    Val (match dir, width, s, r, text with
         | Some dir, Some width, Some s, Some r, Some text =>
             Some (VMovingText mode dir width s r text)
         | _, _, _, _, _ => None
         end)
  else Val None.

(** multi.rs 1225-1237 *)
Definition parse_moving_text_linear (tag : str) : M (option Value) :=
  if negb (is_empty tag) then
    let! t := slice_from tag 1 in
    let! h := slice_to tag 1 in
    match parse_u8 h with
    | Some i => parse_moving_text_mode t (Linear i)
    | None => parse_moving_text_mode tag (Linear 0)
    end
  else Val None.

(** multi.rs 1211-1223 *)
Definition parse_moving_text (tag : str) : M (option Value) :=
  if 2 <? len tag then
    let! t := slice_from tag 3 in
    let! h := slice tag 2 3 in
    if str_eqb h (lit "c") || str_eqb h (lit "C") then parse_moving_text_mode t Circular
    else if str_eqb h (lit "l") || str_eqb h (lit "L") then parse_moving_text_linear t
    else Val None
  else Val None.

(** multi.rs 1269-1280 *)
Definition parse_new_line (tag : str) : M (option Value) :=
  if len tag =? 2 then Val (Some (VNewLine None))
  else if len tag =? 3 then
    let! t := slice_from tag 2 in
    Val (match parse_u8 t with
         | Some n => Some (VNewLine (Some n))
         | None => None
         end)
  else Val None.

(** multi.rs 1282-1288 *)
Definition parse_new_page (tag : str) : M (option Value) :=
  Val (if len tag =? 2 then Some VNewPage else None).

(** multi.rs 1290-1297 *)
Definition parse_page_time (tag : str) : M (option Value) :=
  let! t := slice_from tag 2 in
  let vs := splitn 2 is_o t in
  let '(t, vs) := parse_optional parse_u8 vs in
  let '(o, _) := parse_optional parse_u8 vs in
  Val (match t, o with
       | Some t, Some o => Some (VPageTime t o)
       | _, _ => None
       end).

(** multi.rs 1299-1306 *)
Definition parse_spacing_character (tag : str) : M (option Value) :=
  let! t := slice_from tag 2 in
  let vs := [t] in
  Val (match fst (parse_int parse_u8 vs) with
       | Some s => if s <? 100 then Some (VSpacingCharacter s) else None
       | None => None
       end).

(** multi.rs 1308-1315 *)
Definition parse_spacing_character_end (tag : str) : M (option Value) :=
  Val (if len tag =? 3 then Some VSpacingCharacterEnd else None).

(** multi.rs 1317-1321 *)
Definition parse_text_rectangle (tag : str) : M (option Value) :=
  let! t := slice_from tag 2 in
  let vs := splitn 4 is_comma t in
  Val (match fst (parse_rectangle vs) with
       | Some r => Some (VTextRectangle r)
       | None => None
       end).

(** [Some(c)] pattern on an optional character. *)
Definition is_ch (o : option Z) (c : Z) : bool :=
  match o with Some x => x =? c | None => false end.

(** multi.rs 1359: [.ok_or_else(UnsupportedTagValue)]. *)
Definition ok_or_value (tag : str) (m : M (option Value))
  : M (result Value SyntaxError) :=
  let! o := m in
  Val (match o with
       | Some v => Ok v
       | None => Err (SUnsupportedTagValue tag)
       end).

(** multi.rs 1323-1360: [parse_tag]. *)
Definition parse_tag (tag : str) : M (result Value SyntaxError) :=
  let chars := map to_lower tag in
  let t0 := nth_error chars 0 in
  let t1 := nth_error chars 1 in
  let t2 := nth_error chars 2 in
  if is_ch t0 ch_n && is_ch t1 ch_l then ok_or_value tag (parse_new_line tag)
  else if is_ch t0 ch_n && is_ch t1 ch_p then ok_or_value tag (parse_new_page tag)
  else if is_ch t0 ch_f && is_ch t1 ch_o then ok_or_value tag (parse_font tag)
  else if is_ch t0 ch_j && is_ch t1 ch_l then ok_or_value tag (parse_justification_line tag)
  else if is_ch t0 ch_j && is_ch t1 ch_p then ok_or_value tag (parse_justification_page tag)
  else if is_ch t0 ch_p && is_ch t1 ch_t then ok_or_value tag (parse_page_time tag)
  else if is_ch t0 ch_p && is_ch t1 ch_b then ok_or_value tag (parse_page_background tag)
  else if is_ch t0 ch_c && is_ch t1 ch_f then ok_or_value tag (parse_color_foreground tag)
  else if is_ch t0 ch_c && is_ch t1 ch_r then ok_or_value tag (parse_color_rectangle tag)
  else if is_ch t0 ch_t && is_ch t1 ch_r then ok_or_value tag (parse_text_rectangle tag)
  else if is_ch t0 ch_c && is_ch t1 ch_b then ok_or_value tag (parse_color_background tag)
  else if is_ch t0 ch_s && is_ch t1 ch_c then ok_or_value tag (parse_spacing_character tag)
  else if is_ch t0 ch_h && is_ch t1 ch_c then ok_or_value tag (parse_hexadecimal_character tag)
  else if is_ch t0 ch_f && is_ch t1 ch_l then ok_or_value tag (parse_flash_time tag)
  else if is_ch t0 ch_m && is_ch t1 ch_v then ok_or_value tag (parse_moving_text tag)
  else if is_ch t0 ch_m && is_ch t1 ch_s then ok_or_value tag (parse_manufacturer_specific tag)
  else if is_ch t0 ch_f && is_ch t1 ch_e then Val (Err (SUnsupportedTag tag))
  else if is_ch t0 ch_f then ok_or_value tag (parse_field tag)
  else if is_ch t0 ch_g then ok_or_value tag (parse_graphic tag)
  else if is_ch t0 ch_slash && is_ch t1 ch_s && is_ch t2 ch_c
  then ok_or_value tag (parse_spacing_character_end tag)
  else if is_ch t0 ch_slash && is_ch t1 ch_f && is_ch t2 ch_l
  then ok_or_value tag (parse_flash_end tag)
  else if is_ch t0 ch_slash && is_ch t1 ch_m && is_ch t2 ch_s
  then ok_or_value tag (parse_manufacturer_specific_end tag)
  else Val (Err (SUnsupportedTag tag)).

(** multi.rs 820: code points allowed in text. *)
Definition text_char_ok (c : Z) : bool := (1 <=? c) && (c <=? 255).

(** multi.rs 810-826: [Value::try_from]. *)
Definition try_from (ms : str) : M (result Value SyntaxError) :=
  if str_eqb ms (lit "[[") || str_eqb ms (lit "]]") then
    let! t := slice_to ms 1 in Val (Ok (VText t))
  else if starts_with ms [ch_lb] && ends_with_ch ms ch_rb then
    let! t := slice ms 1 (len ms - 1) in parse_tag t
  else if starts_with ms [ch_lb] || starts_with ms [ch_rb] then
    Val (Err (SUnsupportedTag ms))
  else if existsb (fun c => negb (text_char_ok c)) ms then
    Val (Err (SOther (lit "Invalid code point")))
  else Val (Ok (VText ms)).

(** multi.rs 1363-1367: [MultiStr::new]. *)
Definition ms_new (ms : str) : MultiStr := mkMS ms 0.

(** multi.rs 1369-1372: [MultiStr::split]. *)
Definition ms_split (m : MultiStr) : M (str * str) := split_at (ms_str m) (ms_off m).

(** multi.rs 1374-1377: [MultiStr::remaining]. *)
Definition ms_remaining (m : MultiStr) : M str := slice_from (ms_str m) (ms_off m).

(** multi.rs 1379-1385: [MultiStr::chop_start]. *)
Definition chop_start (md : mode) (m : MultiStr) (i : Z) : M (option str * MultiStr) :=
  let! _ := (match md with
             | Debug => if 0 <? i then Val tt else Panic
             | Release => Val tt
             end) in
  let! s := slice (ms_str m) (ms_off m) (ms_off m + i) in
  Val (Some s, mkMS (ms_str m) (ms_off m + i)).

(** multi.rs 1393-1404: the scan of [next_slice]; [open] is
    [ms.starts_with('[')], [i] the byte index of the head of [cs]. *)
Fixpoint slice_scan (opened : bool) (i : Z) (cs : str) : option Z :=
  match cs with
  | [] => None
  | c :: r =>
      if (c =? ch_lb) && (0 <? i) then Some i
      else if c =? ch_rb then Some (if opened then i + 1 else Z.max i 1)
      else slice_scan opened (i + utf8_len c) r
  end.

(** multi.rs 1387-1408: [MultiStr::next_slice]. *)
Definition next_slice (md : mode) (m : MultiStr) : M (option str * MultiStr) :=
  let! ms := ms_remaining m in
  if starts_with ms (lit "[[") || starts_with ms (lit "]]") then chop_start md m 2
  else match slice_scan (starts_with ms [ch_lb]) 0 ms with
       | Some i => chop_start md m i
       | None =>
           let! ms := ms_remaining m in
           let m' := mkMS (ms_str m) (ms_off m + len ms) in
           Val (if negb (is_empty ms) then (Some ms, m') else (None, m'))
       end.

(** multi.rs 1424-1430, 1501-1504: the slices [split] yields from state [m].
    Every step consumes input (proved), so [length + 1] steps suffice; running
    out would be an endless loop. *)
Fixpoint slices (md : mode) (fuel : nat) (m : MultiStr) : M (list str) :=
  match fuel with
  | O => Hang
  | S f =>
      let! p := next_slice md m in
      match p with
      | (None, _) => Val []
      | (Some s, m') => let! r := slices md f m' in Val (s :: r)
      end
  end.

(** multi.rs 1501-1504: [split], collected. *)
Definition split (md : mode) (ms : str) : M (list str) :=
  slices md (S (List.length ms)) (ms_new ms).

(** multi.rs 1410-1422: the items the [MultiStr] iterator yields from state
    [m], each with the state after it.  Items are delayed outcomes: a loop that
    stops early never observes a later panic. *)
Fixpoint items_fuel (md : mode) (fuel : nat) (m : MultiStr)
  : list (M (result Value SyntaxError) * MultiStr) :=
  match fuel with
  | O => [(Hang, m)]
  | S f =>
      match next_slice md m with
      | Val (None, _) => []
      | Val (Some s, m') => (try_from s, m') :: items_fuel md f m'
      | Panic => [(Panic, m)]
      | Hang => [(Hang, m)]
      end
  end.

Definition items (md : mode) (m : MultiStr) :=
  items_fuel md (S (List.length (ms_str m))) m.

(** The iterator over a whole string ([MultiStr::new(ms)]). *)
Definition values (md : mode) (ms : str) : list (M (result Value SyntaxError)) :=
  map fst (items md (ms_new ms)).

(** State of the loop in [normalize]: multi.rs 1442-1447. *)
Record NormState := mkNorm {
  n_norm : str; n_trail : str;
  n_cf : option Color; n_fo : option (Z * option Z);
  n_jl : option JustificationLine; n_jp : option JustificationPage }.

(** multi.rs 1449-1481: one iteration of [normalize] on a parsed value. *)
Definition norm_step (v : Value) (st : NormState) : NormState :=
  let '(same, st) :=
    match v with
    | VColorForeground cfv =>
        (option_eqb color_eqb cfv (n_cf st),
         mkNorm (n_norm st) (n_trail st) cfv (n_fo st) (n_jl st) (n_jp st))
    | VFont fov =>
        (option_eqb font_eqb fov (n_fo st),
         mkNorm (n_norm st) (n_trail st) (n_cf st) fov (n_jl st) (n_jp st))
    | VJustificationLine jlv =>
        (option_eqb jl_eqb jlv (n_jl st),
         mkNorm (n_norm st) (n_trail st) (n_cf st) (n_fo st) jlv (n_jp st))
    | VJustificationPage jpv =>
        (option_eqb jp_eqb jpv (n_jp st),
         mkNorm (n_norm st) (n_trail st) (n_cf st) (n_fo st) (n_jl st) jpv)
    | _ => (false, st)
    end in
  if negb same then
    if value_is_blank v then
      mkNorm (n_norm st) (n_trail st ++ display v) (n_cf st) (n_fo st) (n_jl st) (n_jp st)
    else
      mkNorm ((n_norm st ++ n_trail st) ++ display v) [] (n_cf st) (n_fo st) (n_jl st) (n_jp st)
  else st.

(** multi.rs 1448-1482: the loop over [MultiStr::new(ms).flatten()] (errors
    are skipped). *)
Fixpoint norm_loop (vs : list (M (result Value SyntaxError))) (st : NormState)
  : M NormState :=
  match vs with
  | [] => Val st
  | m :: r =>
      let! x := m in
      match x with
      | Ok v => norm_loop r (norm_step v st)
      | Err _ => norm_loop r st
      end
  end.

(** multi.rs 1432-1484: [normalize]. *)
Definition normalize (md : mode) (ms : str) : M str :=
  let! st := norm_loop (values md ms) (mkNorm [] [] None None None None) in
  Val (n_norm st).

(** multi.rs 1490-1493: [Iterator::all], stopping at the first [false]. *)
Fixpoint all_blank (vs : list (M (result Value SyntaxError))) : M bool :=
  match vs with
  | [] => Val true
  | m :: r =>
      let! x := m in
      match x with
      | Ok v => if value_is_blank v then all_blank r else Val false
      | Err _ => Val false
      end
  end.

(** multi.rs 1486-1494: [is_blank]. *)
Definition is_blank (md : mode) (ms : str) : M bool := all_blank (values md ms).

(** multi.rs 1506-1512: [text_spans], collected. *)
Fixpoint spans_of (vs : list (M (result Value SyntaxError))) : M (list str) :=
  match vs with
  | [] => Val []
  | m :: r =>
      let! x := m in
      match x with
      | Ok (VText t) => let! l := spans_of r in Val (t :: l)
      | _ => spans_of r
      end
  end.
Definition text_spans (md : mode) (ms : str) : M (list str) := spans_of (values md ms).

(** multi.rs 1496-1499: [join_text]. *)
Definition join_text (md : mode) (ms sep : str) : M str :=
  let! l := text_spans md ms in Val (join sep l).
