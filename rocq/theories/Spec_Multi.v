(** Specification of the MULTI string grammar, written from the documentation
    (NTCIP 1203) and the doc comments of src/dms/multi.rs, independently of the
    parser in [Multi].  Only the data types ([Value], [SyntaxError], ...) are
    shared with the model. *)

From Coq Require Import String.
From Verif Require Import Base Str Multi.

(** ** Tokens *)

Definition bracket (c : Z) : Prop := c = 91 \/ c = 93.
Definition plain (s : str) : Prop := Forall (fun c => c <> 91 /\ c <> 93) s.

(** A text run or unterminated tag goes on until a bracket or the end. *)
Definition at_boundary (rest : str) : Prop :=
  rest = [] \/ exists c r, rest = c :: r /\ bracket c.
Definition at_open_or_end (rest : str) : Prop :=
  rest = [] \/ exists r, rest = 91 :: r.

(** [Token t rest]: [t] is the next token when [rest] follows it. *)
Inductive Token : str -> str -> Prop :=
| Tk_esc_open rest : Token [91; 91] rest
| Tk_esc_close rest : Token [93; 93] rest
| Tk_tag b rest : plain b -> Token (91 :: b ++ [93]) rest
| Tk_unterminated b rest :
    plain b -> at_open_or_end rest -> (b = [] -> rest = []) -> Token (91 :: b) rest
| Tk_stray rest : (forall r, rest <> 93 :: r) -> Token [93] rest
| Tk_text t rest : t <> [] -> plain t -> at_boundary rest -> Token t rest.

Inductive Tokens : str -> list str -> Prop :=
| Tks_nil : Tokens [] []
| Tks_cons t rest ts : Token t rest -> Tokens rest ts -> Tokens (t ++ rest) (t :: ts).

(** ** Numerals *)

(** Value [d] of digit character [c]. *)
Definition DigitVal (radix c d : Z) : Prop :=
  ((48 <= c <= 57 /\ d = c - 48) \/ (97 <= c <= 122 /\ d = c - 87)
   \/ (65 <= c <= 90 /\ d = c - 55)) /\ d < radix.

(** [s] is a non-empty digit string of value [n]. *)
Inductive Digits (radix : Z) : str -> Z -> Prop :=
| Dg_one c d : DigitVal radix c d -> Digits radix [c] d
| Dg_snoc s n c d :
    Digits radix s n -> DigitVal radix c d -> Digits radix (s ++ [c]) (n * radix + d).

(** Numerals below [bound]; Rust's [parse] also accepts one leading plus. *)
Definition Num (radix bound : Z) (s : str) (n : Z) : Prop :=
  (Digits radix s n \/ exists s', s = 43 :: s' /\ Digits radix s' n) /\ n < bound.
Definition Num8 := Num 10 256.
Definition Num16 := Num 10 65536.
Definition Num32 := Num 10 4294967296.
Definition Hex16 := Num 16 65536.

(** A version id is written with exactly four characters. *)
Definition Hex4 (s : str) (n : Z) : Prop := Hex16 s n /\ List.length s = 4%nat.

(** ** Tags *)

(** Tag codes are written in either case. *)
Inductive CodeCh : Z -> Z -> Prop :=
| Cc_same c : CodeCh c c
| Cc_upper c : 97 <= c <= 122 -> CodeCh c (c - 32).
Definition Code (l : string) (k : str) : Prop := Forall2 CodeCh (lit l) k.

(** Colours: [v] or [r,g,b]. *)
Inductive ColorText : str -> Color -> Prop :=
| Ct_legacy s n : Num8 s n -> ColorText s (Legacy n)
| Ct_rgb sr sg sb r g b :
    Num8 sr r -> Num8 sg g -> Num8 sb b ->
    ColorText (sr ++ [44] ++ sg ++ [44] ++ sb) (Rgb r g b).

(** Rectangles: [x,y,w,h] with a 1-based corner. *)
Inductive RectText : str -> Rectangle -> Prop :=
| Rt sx sy sw sh x y w h :
    Num16 sx x -> Num16 sy y -> Num16 sw w -> Num16 sh h -> 1 <= x -> 1 <= y ->
    RectText (sx ++ [44] ++ sy ++ [44] ++ sw ++ [44] ++ sh) (mkRect x y w h).

(** An optional number: empty or a numeral satisfying [P]. *)
Inductive OptText (P : str -> Z -> Prop) : str -> option Z -> Prop :=
| Ot_none : OptText P [] None
| Ot_some s n : P s n -> OptText P s (Some n).

(** [a], or [a] then a separator and [b]. *)
Inductive SepOpt (sep : Z -> Prop) (P : str -> Z -> Prop)
  : str -> option Z -> option Z -> Prop :=
| So_one s a : OptText P s a -> SepOpt sep P s a None
| So_two s c s' a b : OptText P s a -> sep c -> OptText P s' b ->
    SepOpt sep P (s ++ [c] ++ s') a b.

Definition le99 (s : str) (n : Z) : Prop := Num8 s n /\ n <= 99.
Definition sep_o (c : Z) : Prop := c = 111 \/ c = 79.
Definition sep_t (c : Z) : Prop := c = 116 \/ c = 84.

Definition jl_of (c : Z) : option JustificationLine :=
  match c with
  | 49 => Some JlOther | 50 => Some JlLeft | 51 => Some JlCenter | 52 => Some JlRight
  | 53 => Some JlFull | _ => None
  end.
Definition jp_of (c : Z) : option JustificationPage :=
  match c with
  | 49 => Some JpOther | 50 => Some JpTop | 51 => Some JpMiddle | 52 => Some JpBottom
  | _ => None
  end.

Inductive DirCh : Z -> MovingTextDirection -> Prop :=
| Dir_l c : CodeCh 108 c -> DirCh c MvLeft
| Dir_r c : CodeCh 114 c -> DirCh c MvRight.

(** The part of a moving text tag after its mode: [dW,S,R,text]. *)
Inductive MovingArgs : str -> MovingTextDirection -> Z -> Z -> Z -> str -> Prop :=
| Ma c d sw ss sr w s r t :
    DirCh c d -> Num16 sw w -> Num8 ss s -> Num8 sr r ->
    MovingArgs (c :: sw ++ [44] ++ ss ++ [44] ++ sr ++ [44] ++ t) d w s r t.

(** [ArgDenotes l r v]: after code [l], the parameters [r] denote [v]. *)
Inductive ArgDenotes : string -> str -> Value -> Prop :=
| Ad_cb0 : ArgDenotes "cb" [] (VColorBackground None)
| Ad_cb s n : Num8 s n -> ArgDenotes "cb" s (VColorBackground (Some (Legacy n)))
| Ad_pb0 : ArgDenotes "pb" [] (VPageBackground None)
| Ad_pb s c : ColorText s c -> ArgDenotes "pb" s (VPageBackground (Some c))
| Ad_cf0 : ArgDenotes "cf" [] (VColorForeground None)
| Ad_cf s c : ColorText s c -> ArgDenotes "cf" s (VColorForeground (Some c))
| Ad_cr sr sc r c : RectText sr r -> ColorText sc c ->
    ArgDenotes "cr" (sr ++ [44] ++ sc) (VColorRectangle r c)
| Ad_f1 s n : Num8 s n -> n <= 13 -> ArgDenotes "f" s (VField n None)
| Ad_f2 s n s' w : Num8 s n -> n <= 13 -> OptText Num8 s' w ->
    ArgDenotes "f" (s ++ [44] ++ s') (VField n w)
| Ad_fl0 : ArgDenotes "fl" [] (VFlash OnOff None None)
| Ad_flt c s a b : CodeCh 116 c -> SepOpt sep_o le99 s a b ->
    ArgDenotes "fl" (c :: s) (VFlash OnOff a b)
| Ad_flo c s a b : CodeCh 111 c -> SepOpt sep_t le99 s a b ->
    ArgDenotes "fl" (c :: s) (VFlash OffOn a b)
| Ad_flend : ArgDenotes "/fl" [] VFlashEnd
| Ad_fo0 : ArgDenotes "fo" [] (VFont None)
| Ad_fo1 s n : Num8 s n -> 1 <= n -> ArgDenotes "fo" s (VFont (Some (n, None)))
| Ad_fo2 s n s' h : Num8 s n -> 1 <= n -> Hex4 s' h ->
    ArgDenotes "fo" (s ++ [44] ++ s') (VFont (Some (n, Some h)))
| Ad_g1 s n : Num8 s n -> 1 <= n -> ArgDenotes "g" s (VGraphic n None)
| Ad_g2 s n sx sy x y : Num8 s n -> 1 <= n ->
    Num16 sx x -> Num16 sy y -> 1 <= x -> 1 <= y ->
    ArgDenotes "g" (s ++ [44] ++ sx ++ [44] ++ sy) (VGraphic n (Some (x, y, None)))
| Ad_g3 s n sx sy x y s' h : Num8 s n -> 1 <= n ->
    Num16 sx x -> Num16 sy y -> 1 <= x -> 1 <= y -> Hex4 s' h ->
    ArgDenotes "g" (s ++ [44] ++ sx ++ [44] ++ sy ++ [44] ++ s')
      (VGraphic n (Some (x, y, Some h)))
| Ad_hc s c : Hex16 s c -> ArgDenotes "hc" s (VHexadecimalCharacter c)
| Ad_jl0 : ArgDenotes "jl" [] (VJustificationLine None)
| Ad_jl c j : jl_of c = Some j -> ArgDenotes "jl" [c] (VJustificationLine (Some j))
| Ad_jp0 : ArgDenotes "jp" [] (VJustificationPage None)
| Ad_jp c j : jp_of c = Some j -> ArgDenotes "jp" [c] (VJustificationPage (Some j))
| Ad_ms1 s n : Num32 s n -> ArgDenotes "ms" s (VManufacturerSpecific n None)
| Ad_ms2 s n t : Num32 s n -> ArgDenotes "ms" (s ++ [44] ++ t) (VManufacturerSpecific n (Some t))
| Ad_msend1 s n : Num32 s n -> ArgDenotes "/ms" s (VManufacturerSpecificEnd n None)
| Ad_msend2 s n t : Num32 s n ->
    ArgDenotes "/ms" (s ++ [44] ++ t) (VManufacturerSpecificEnd n (Some t))
| Ad_mvc c s d w sp r t : CodeCh 99 c -> MovingArgs s d w sp r t ->
    ArgDenotes "mv" (c :: s) (VMovingText Circular d w sp r t)
| Ad_mvl c s d w sp r t : CodeCh 108 c -> MovingArgs s d w sp r t ->
    ArgDenotes "mv" (c :: s) (VMovingText (Linear 0) d w sp r t)
| Ad_mvln c e n s d w sp r t : CodeCh 108 c -> DigitVal 10 e n -> MovingArgs s d w sp r t ->
    ArgDenotes "mv" (c :: e :: s) (VMovingText (Linear n) d w sp r t)
| Ad_nl0 : ArgDenotes "nl" [] (VNewLine None)
| Ad_nl c n : DigitVal 10 c n -> ArgDenotes "nl" [c] (VNewLine (Some n))
| Ad_np : ArgDenotes "np" [] VNewPage
| Ad_pt s a b : SepOpt sep_o Num8 s a b -> ArgDenotes "pt" s (VPageTime a b)
| Ad_sc s n : Num8 s n -> n <= 99 -> ArgDenotes "sc" s (VSpacingCharacter n)
| Ad_scend : ArgDenotes "/sc" [] VSpacingCharacterEnd
| Ad_tr s r : RectText s r -> ArgDenotes "tr" s (VTextRectangle r).

(** [TagDenotes body v]: the text between the brackets denotes [v]. *)
Definition TagDenotes (body : str) (v : Value) : Prop :=
  exists l k r, body = k ++ r /\ Code l k /\ ArgDenotes l r v.

(** Bodies whose code names a tag of the standard that the parser knows ([fe]
    is not one of them). *)
Definition known_codes : list string :=
  ["nl"; "np"; "fo"; "jl"; "jp"; "pt"; "pb"; "cf"; "cr"; "tr"; "cb"; "sc"; "hc"; "fl";
   "mv"; "ms"; "f"; "g"; "/sc"; "/fl"; "/ms"]%string.
Definition KnownCode (body : str) : Prop :=
  (exists l k r, In l known_codes /\ Code l k /\ body = k ++ r)
  /\ ~ (exists k r, Code "fe" k /\ body = k ++ r).

(** Where the parser slices a tag at byte offsets that may fall inside a
    character: [fl] or [mv] directly followed by a non-ASCII character, or [mv]
    followed by a mode letter, or by [l] and a digit, and then one. *)
Inductive SplitsArg : string -> str -> Prop :=
| Sa_fl c r : 128 <= c -> SplitsArg "fl" (c :: r)
| Sa_mv c r : 128 <= c -> SplitsArg "mv" (c :: r)
| Sa_mvc a c r : CodeCh 99 a -> 128 <= c -> SplitsArg "mv" (a :: c :: r)
| Sa_mvl a c r : CodeCh 108 a -> 128 <= c -> SplitsArg "mv" (a :: c :: r)
| Sa_mvln a d n c r : CodeCh 108 a -> DigitVal 10 d n -> 128 <= c ->
    SplitsArg "mv" (a :: d :: c :: r).
Definition SplitsChar (body : str) : Prop :=
  exists l k r, body = k ++ r /\ Code l k /\ SplitsArg l r.

(** ** Meaning of one token *)

Definition text_char (c : Z) : Prop := 1 <= c <= 255.

Inductive TokenDenotes : str -> result Value SyntaxError -> Prop :=
| Tn_esc_open : TokenDenotes [91; 91] (Ok (VText [91]))
| Tn_esc_close : TokenDenotes [93; 93] (Ok (VText [93]))
| Tn_tag b v : plain b -> TagDenotes b v -> TokenDenotes (91 :: b ++ [93]) (Ok v)
| Tn_value b : plain b -> KnownCode b -> (forall v, ~ TagDenotes b v) -> ~ SplitsChar b ->
    TokenDenotes (91 :: b ++ [93]) (Err (SUnsupportedTagValue b))
| Tn_tag_err b : plain b -> ~ KnownCode b ->
    TokenDenotes (91 :: b ++ [93]) (Err (SUnsupportedTag b))
| Tn_unterminated b : plain b -> TokenDenotes (91 :: b) (Err (SUnsupportedTag (91 :: b)))
| Tn_stray : TokenDenotes [93] (Err (SUnsupportedTag [93]))
| Tn_text t : t <> [] -> plain t -> Forall text_char t -> TokenDenotes t (Ok (VText t))
| Tn_text_err t : t <> [] -> plain t -> ~ Forall text_char t ->
    TokenDenotes t (Err (SOther (lit "Invalid code point"))).

(** Values a parsed string can hold. *)
Inductive Parsable : Value -> Prop :=
| Pa_open : Parsable (VText [91])
| Pa_close : Parsable (VText [93])
| Pa_text t : t <> [] -> plain t -> Forall text_char t -> Parsable (VText t)
| Pa_tag b v : plain b -> TagDenotes b v -> Parsable v.

(** Documented parameter limits (C05). *)
Definition color_ok (c : Color) : Prop :=
  match c with Legacy v => u8 v | Rgb r g b => u8 r /\ u8 g /\ u8 b end.
Definition opt_ok {A} (P : A -> Prop) (o : option A) : Prop :=
  match o with Some x => P x | None => True end.
Definition rect_ok (r : Rectangle) : Prop :=
  1 <= rx r < 65536 /\ 1 <= ry r < 65536 /\ u16 (rwidth r) /\ u16 (rheight r).
Definition value_ok (v : Value) : Prop :=
  match v with
  | VColorBackground c | VColorForeground c | VPageBackground c => opt_ok color_ok c
  | VColorRectangle r c => rect_ok r /\ color_ok c
  | VField i w => 0 <= i < 14 /\ opt_ok u8 w
  | VFlash _ a b => opt_ok (fun n => 0 <= n <= 99) a /\ opt_ok (fun n => 0 <= n <= 99) b
  | VFont f => opt_ok (fun p => 1 <= fst p <= 255 /\ opt_ok u16 (snd p)) f
  | VGraphic n p => 1 <= n <= 255 /\
      opt_ok (fun q => 1 <= fst (fst q) < 65536 /\ 1 <= snd (fst q) < 65536
                       /\ opt_ok u16 (snd q)) p
  | VHexadecimalCharacter c => u16 c
  | VManufacturerSpecific i _ | VManufacturerSpecificEnd i _ => u32 i
  | VMovingText m _ w s r _ =>
      match m with Circular => True | Linear d => 0 <= d <= 9 end /\ u16 w /\ u8 s /\ u8 r
  | VNewLine x => opt_ok (fun n => 0 <= n <= 9) x
  | VPageTime a b => opt_ok u8 a /\ opt_ok u8 b
  | VSpacingCharacter s => 0 <= s < 100
  | VText t => t <> [] /\ Forall text_char t
  | VTextRectangle r => rect_ok r
  | _ => True
  end.

(** ** Letter case (C13) *)

(** The same character, or the same ASCII letter in the other case. *)
Definition CaseCh (x y : Z) : Prop :=
  x = y \/ (65 <= x <= 90 /\ y = x + 32) \/ (97 <= x <= 122 /\ y = x - 32).
Definition CaseEq : str -> str -> Prop := Forall2 CaseCh.

(** Values that differ at most in the case of the free text they carry. *)
Definition CaseEqValue (v w : Value) : Prop :=
  match v, w with
  | VManufacturerSpecific i (Some s), VManufacturerSpecific j (Some t)
  | VManufacturerSpecificEnd i (Some s), VManufacturerSpecificEnd j (Some t) =>
      i = j /\ CaseEq s t
  | VMovingText m d w s r t, VMovingText m' d' w' s' r' t' =>
      m = m' /\ d = d' /\ w = w' /\ s = s' /\ r = r' /\ CaseEq t t'
  | _, _ => v = w
  end.

(** Tag tokens on which the parser slices inside a character. *)
Definition PanicToken (t : str) : Prop := exists b, plain b /\ t = 91 :: b ++ [93] /\ SplitsChar b.

(** ** Meaning of a whole string *)

(** One result per token. *)
Definition Meaning (ms : str) (rs : list (result Value SyntaxError)) : Prop :=
  exists ts, Tokens ms ts /\ Forall2 TokenDenotes ts rs.

(** The values among the results; errors are skipped. *)
Fixpoint oks (rs : list (result Value SyntaxError)) : list Value :=
  match rs with
  | [] => []
  | Ok v :: r => v :: oks r
  | Err _ :: r => oks r
  end.

(** White space among the characters a text may hold (U+0001 to U+00FF). *)
Definition space (c : Z) : Prop := 9 <= c <= 13 \/ c = 32 \/ c = 133 \/ c = 160.

(** Values that show something: graphics, fields, hexadecimal characters,
    rectangles, moving text, manufacturer tags and non-blank texts. *)
Inductive Shown : Value -> Prop :=
| Sh_rect r c : Shown (VColorRectangle r c)
| Sh_field i w : Shown (VField i w)
| Sh_graphic n p : Shown (VGraphic n p)
| Sh_hex c : Shown (VHexadecimalCharacter c)
| Sh_ms i s : Shown (VManufacturerSpecific i s)
| Sh_msend i s : Shown (VManufacturerSpecificEnd i s)
| Sh_mv m d w s r t : Shown (VMovingText m d w s r t)
| Sh_text t c : In c t -> ~ space c -> Shown (VText t).

(** The settings that [cf], [fo], [jl] and [jp] tags put in force; [None] is
    the default. *)
Record Settings := mkSet {
  s_cf : option Color; s_fo : option (Z * option Z);
  s_jl : option JustificationLine; s_jp : option JustificationPage }.
Definition settings0 := mkSet None None None None.
Definition apply_setting (v : Value) (s : Settings) : Settings :=
  match v with
  | VColorForeground c => mkSet c (s_fo s) (s_jl s) (s_jp s)
  | VFont f => mkSet (s_cf s) f (s_jl s) (s_jp s)
  | VJustificationLine j => mkSet (s_cf s) (s_fo s) j (s_jp s)
  | VJustificationPage j => mkSet (s_cf s) (s_fo s) (s_jl s) j
  | _ => s
  end.
Definition is_setting (v : Value) : bool :=
  match v with
  | VColorForeground _ | VFont _ | VJustificationLine _ | VJustificationPage _ => true
  | _ => false
  end.

(** A setting tag that changes nothing. *)
Definition Redundant (s : Settings) (v : Value) : Prop :=
  is_setting v = true /\ apply_setting v s = s.
Fixpoint NoRedundant (s : Settings) (vs : list Value) : Prop :=
  match vs with
  | [] => True
  | v :: r => ~ Redundant s v /\ NoRedundant (apply_setting v s) r
  end.

(** The content of a message: every character and every tag that is not a
    setting, each with the settings in force. *)
Inductive Item := IChar (c : Z) | ITag (v : Value).
Fixpoint content (s : Settings) (vs : list Value) : list (Item * Settings) :=
  match vs with
  | [] => []
  | VText t :: r => map (fun c => (IChar c, s)) t ++ content s r
  | v :: r =>
      if is_setting v then content (apply_setting v s) r else (ITag v, s) :: content s r
  end.

(** An item that shows nothing: white space, or a tag that only affects
    layout. *)
Definition BlankItem (i : Item) : Prop :=
  match i with IChar c => space c | ITag v => ~ Shown v end.

(** What is visible: text characters and shown tags, without settings. *)
Fixpoint visible (vs : list Value) : list Item :=
  match vs with
  | [] => []
  | VText t :: r => map IChar t ++ visible r
  | (VColorRectangle _ _ | VField _ _ | VGraphic _ _ | VHexadecimalCharacter _
    | VManufacturerSpecific _ _ | VManufacturerSpecificEnd _ _ | VMovingText _ _ _ _ _ _) as v :: r =>
      ITag v :: visible r
  | _ :: r => visible r
  end.

(** Hexadecimal characters whose printed form reads back (see C06). *)
Definition small_hex (v : Value) : Prop :=
  match v with VHexadecimalCharacter c => c < 10 | _ => True end.

(** ** Text (C12) *)

Fixpoint texts (rs : list (result Value SyntaxError)) : list str :=
  match rs with
  | [] => []
  | Ok (VText t) :: r => t :: texts r
  | _ :: r => texts r
  end.

(** Text escaped for MULTI: brackets doubled. *)
Fixpoint escape (t : str) : str :=
  match t with
  | [] => []
  | c :: r => if (c =? 91) || (c =? 93) then c :: c :: escape r else c :: escape r
  end.

(** [Interspersed sep l s]: [s] is the strings of [l] with [sep] between each
    two. *)
Inductive Interspersed (sep : str) : list str -> str -> Prop :=
| Is_nil : Interspersed sep [] []
| Is_one s : Interspersed sep [s] s
| Is_cons s s' l r : Interspersed sep (s' :: l) r -> Interspersed sep (s :: s' :: l) (s ++ sep ++ r).

(** ** Hexadecimal characters read back from decimal print (C07 to C10) *)

(** The decimal digits of [c] (at most five) read in base 16. *)
Definition decimal_as_hex (c : Z) : Z :=
  c / 10000 * 65536 + c / 1000 mod 10 * 4096 + c / 100 mod 10 * 256 + c / 10 mod 10 * 16
  + c mod 10.

Inductive Reread : Value -> result Value SyntaxError -> Prop :=
| Rr_same v : (forall c, v <> VHexadecimalCharacter c) -> Reread v (Ok v)
| Rr_hex c : c < 10000 ->
    Reread (VHexadecimalCharacter c) (Ok (VHexadecimalCharacter (decimal_as_hex c)))
| Rr_bad c e : 10000 <= c -> Reread (VHexadecimalCharacter c) (Err e).

(** Hexadecimal characters whose printed form is a tag. *)
Definition printable_hex (v : Value) : Prop :=
  match v with VHexadecimalCharacter c => c < 10000 | _ => True end.
