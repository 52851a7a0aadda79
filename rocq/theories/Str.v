(** Rust strings ([str]) as lists of Unicode scalar values, with UTF-8 byte
    lengths and byte-offset slicing, and the standard-library string functions
    the code uses.  (Rust core library, modelled from its documentation.) *)

From Coq Require Import String Ascii.
From Verif Require Import Base.

Definition str := list Z.

(** Unicode scalar values: the values of Rust's [char]. *)
Definition is_char (c : Z) : Prop := 0 <= c < 55296 \/ 57344 <= c < 1114112.
Definition is_charb (c : Z) : bool :=
  ((0 <=? c) && (c <? 55296)) || ((57344 <=? c) && (c <? 1114112)).

(** ASCII literals. *)
Definition lit (x : string) : str :=
  map (fun a => Z.of_N (N_of_ascii a)) (list_ascii_of_string x).

(** Characters used by the parser. *)
Notation ch_lb := 91 (only parsing).     (* [ *)
Notation ch_rb := 93 (only parsing).     (* ] *)
Notation ch_comma := 44 (only parsing).
Notation ch_plus := 43 (only parsing).
Notation ch_slash := 47 (only parsing).
Notation ch_0 := 48 (only parsing).
Notation ch_9 := 57 (only parsing).
Notation ch_b := 98 (only parsing).
Notation ch_c := 99 (only parsing).
Notation ch_e := 101 (only parsing).
Notation ch_f := 102 (only parsing).
Notation ch_g := 103 (only parsing).
Notation ch_h := 104 (only parsing).
Notation ch_j := 106 (only parsing).
Notation ch_l := 108 (only parsing).
Notation ch_m := 109 (only parsing).
Notation ch_n := 110 (only parsing).
Notation ch_o := 111 (only parsing).
Notation ch_p := 112 (only parsing).
Notation ch_r := 114 (only parsing).
Notation ch_s := 115 (only parsing).
Notation ch_t := 116 (only parsing).
Notation ch_v := 118 (only parsing).
Notation ch_C := 67 (only parsing).
Notation ch_L := 76 (only parsing).
Notation ch_O := 79 (only parsing).
Notation ch_R := 82 (only parsing).
Notation ch_T := 84 (only parsing).

(** [char::len_utf8]. *)
Definition utf8_len (c : Z) : Z :=
  if c <? 128 then 1 else if c <? 2048 then 2 else if c <? 65536 then 3 else 4.

(** [str::len], in bytes. *)
Fixpoint len (s : str) : Z :=
  match s with
  | [] => 0
  | c :: r => utf8_len c + len r
  end.

Definition is_empty (s : str) : bool :=
  match s with [] => true | _ => false end.

(** [str::split_at] at a byte offset: [None] when the offset is out of range or
    not on a character boundary. *)
Fixpoint str_split (s : str) (i : Z) : option (str * str) :=
  if i =? 0 then Some ([], s)
  else match s with
       | [] => None
       | c :: r =>
           if i <? utf8_len c then None
           else match str_split r (i - utf8_len c) with
                | Some (a, b) => Some (c :: a, b)
                | None => None
                end
       end.

(** [s.split_at(i)]; panics off a boundary. *)
Definition split_at (s : str) (i : Z) : M (str * str) :=
  match str_split s i with Some p => Val p | None => Panic end.

(** [&s[i..]] *)
Definition slice_from (s : str) (i : Z) : M str :=
  let! p := split_at s i in Val (snd p).

(** [&s[..i]] *)
Definition slice_to (s : str) (i : Z) : M str :=
  let! p := split_at s i in Val (fst p).

(** [&s[i..j]] *)
Definition slice (s : str) (i j : Z) : M str :=
  let! r := slice_from s i in slice_to r (j - i).

Fixpoint str_eqb (a b : str) : bool :=
  match a, b with
  | [], [] => true
  | x :: a', y :: b' => (x =? y) && str_eqb a' b'
  | _, _ => false
  end.

(** [str::starts_with] *)
Fixpoint starts_with (s p : str) : bool :=
  match p, s with
  | [], _ => true
  | y :: p', x :: s' => (x =? y) && starts_with s' p'
  | _, [] => false
  end.

(** [str::ends_with] for a character *)
Definition ends_with_ch (s : str) (c : Z) : bool :=
  match rev s with x :: _ => x =? c | [] => false end.

(** [str::find] for a character predicate: the text before the first match and
    the text after it. *)
Fixpoint break_at (p : Z -> bool) (s : str) : option (str * str) :=
  match s with
  | [] => None
  | c :: r =>
      if p c then Some ([], r)
      else match break_at p r with
           | Some (a, b) => Some (c :: a, b)
           | None => None
           end
  end.

(** [str::splitn] *)
Fixpoint splitn (n : nat) (p : Z -> bool) (s : str) : list str :=
  match n with
  | O => []
  | S O => [s]
  | S n' =>
      match break_at p s with
      | Some (a, b) => a :: splitn n' p b
      | None => [s]
      end
  end.

(** [str::split] (there are at most [length s + 1] pieces) *)
Definition split_on (p : Z -> bool) (s : str) : list str :=
  splitn (S (List.length s)) p s.

Definition is_comma (c : Z) : bool := c =? ch_comma.
Definition is_o (c : Z) : bool := (c =? ch_o) || (c =? ch_O).
Definition is_t (c : Z) : bool := (c =? ch_t) || (c =? ch_T).

(** [char::to_ascii_lowercase] *)
Definition to_lower (c : Z) : Z :=
  if (65 <=? c) && (c <=? 90) then c + 32 else c.

(** [char::to_digit(radix)] for radix 10 and 16 *)
Definition digit_val (radix c : Z) : option Z :=
  let d :=
    if (48 <=? c) && (c <=? 57) then Some (c - 48)
    else if (97 <=? c) && (c <=? 122) then Some (c - 87)
    else if (65 <=? c) && (c <=? 90) then Some (c - 55)
    else None in
  match d with
  | Some v => if v <? radix then Some v else None
  | None => None
  end.

(** Digit loop of [from_str_radix] with [checked_mul] and [checked_add]. *)
Fixpoint parse_digits (radix bound acc : Z) (s : str) : option Z :=
  match s with
  | [] => Some acc
  | c :: r =>
      match digit_val radix c with
      | None => None
      | Some d =>
          let m := acc * radix in
          if m <? bound then
            let a := m + d in
            if a <? bound then parse_digits radix bound a r else None
          else None
      end
  end.

(** [<uN>::from_str_radix]: an optional [+], then one or more digits. *)
Definition parse_radix (radix bound : Z) (s : str) : option Z :=
  match s with
  | [] => None
  | c :: r =>
      if c =? ch_plus then
        match r with
        | [] => None
        | _ => parse_digits radix bound 0 r
        end
      else parse_digits radix bound 0 s
  end.

(** [s.parse::<u8>()] etc. *)
Definition parse_u8 : str -> option Z := parse_radix 10 256.
Definition parse_u16 : str -> option Z := parse_radix 10 65536.
Definition parse_u32 : str -> option Z := parse_radix 10 4294967296.
Definition parse_hex16 : str -> option Z := parse_radix 16 65536.

(** [Display] of an unsigned integer (at most 10 digits for u32). *)
Fixpoint show_digits (fuel : nat) (n : Z) (acc : str) : str :=
  match fuel with
  | O => acc
  | S f =>
      let acc' := (48 + n mod 10) :: acc in
      if n / 10 =? 0 then acc' else show_digits f (n / 10) acc'
  end.
Definition show (n : Z) : str := show_digits 10 n [].

(** [{:x}] digit *)
Definition hex_digit (d : Z) : Z := if d <? 10 then 48 + d else 87 + d.

(** [{:04x}] of a u16 *)
Definition show_hex4 (n : Z) : str :=
  [ hex_digit (n / 4096 mod 16); hex_digit (n / 256 mod 16);
    hex_digit (n / 16 mod 16); hex_digit (n mod 16) ].

(** [char::is_whitespace]: the Unicode White_Space property. *)
Definition is_whitespace (c : Z) : bool :=
  ((9 <=? c) && (c <=? 13)) || (c =? 32) || (c =? 133) || (c =? 160)
  || (c =? 5760) || ((8192 <=? c) && (c <=? 8202)) || (c =? 8232)
  || (c =? 8233) || (c =? 8239) || (c =? 8287) || (c =? 12288).

Fixpoint trim_start (s : str) : str :=
  match s with
  | [] => []
  | c :: r => if is_whitespace c then trim_start r else s
  end.

(** [str::trim] *)
Definition trim (s : str) : str := rev (trim_start (rev (trim_start s))).

(** [s.replace(c, with)] *)
Definition replace (c : Z) (w s : str) : str :=
  flat_map (fun x => if x =? c then w else [x]) s.

(** [slice::join] for strings *)
Fixpoint join (sep : str) (l : list str) : str :=
  match l with
  | [] => []
  | [x] => x
  | x :: r => x ++ sep ++ join sep r
  end.
