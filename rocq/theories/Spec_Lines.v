(** What extracting lines from a message with a pattern gives (C62), for every
    message.  A message is taken as its tokens; the areas of the pattern are those
    of [Spec_Pattern]. *)

From Verif Require Import Base Str Multi Color Font Config Sign
  Spec_Multi Spec_Color Spec_Sign Spec_Render Spec_Layout Spec_Page Spec_Pattern.
Open Scope list_scope.

(** ** What is asked of a message *)

(** [Stop]: the pattern cannot be read further. *)
Inductive Task := Match (v : Value) | Fill (a : Area) | Stop.

(** The values of an area must be in the message, but for font tags; the lines
    of a fillable area come after its values and before its end. *)
Inductive Tasks (d : Dms) : list Area -> list Task -> Prop :=
| Ts_nil : Tasks d [] []
| Ts_fill a l k : Fillable d a -> Tasks d l k ->
    Tasks d (a :: l) (map Match (without_fonts (ar_values a)) ++ Fill a :: map Match (end_values a) ++ k)
| Ts_other a l k : ~ Fillable d a -> Tasks d l k ->
    Tasks d (a :: l) (map Match (without_fonts (ar_values a) ++ end_values a) ++ k).

(** Of a pattern with a tag whose reading panics, the areas [l] come from the part
    before the tag; the last area has no end and is not filled. *)
Definition PatternTasks (d : Dms) (l : list Area) (cut : bool) (k : list Task) : Prop :=
  if cut then exists l' a k', l = l' ++ [a] /\ Tasks d l' k'
    /\ k = k' ++ map Match (without_fonts (ar_values a)) ++ [Stop]
  else Tasks d l k.

(** ** Looking for a value *)

Inductive Step := Rest (ts : list str) | Differs | Crashes.

(** Font tags of the message are skipped; the end of the message counts as an
    [np] tag. *)
Inductive Seek (v : Value) : list str -> Step -> Prop :=
| Sk_font t f ts s : TokenDenotes t (Ok (VFont f)) -> Seek v ts s -> Seek v (t :: ts) s
| Sk_found t ts : is_font v = false -> TokenDenotes t (Ok v) -> Seek v (t :: ts) (Rest ts)
| Sk_end : v = VNewPage -> Seek v [] (Rest [])
| Sk_short : v <> VNewPage -> Seek v [] Differs
| Sk_other t w ts : TokenDenotes t (Ok w) -> is_font w = false -> w <> v -> Seek v (t :: ts) Differs
| Sk_bad t e ts : TokenDenotes t (Err e) -> Seek v (t :: ts) Differs
| Sk_crash t ts : PanicToken t -> Seek v (t :: ts) Crashes.

(** ** Reading lines *)

Definition LineToken (t : str) : Prop := exists v, TokenDenotes t (Ok v) /\ line_value v.
Definition BreakToken (t : str) : Prop := exists x, TokenDenotes t (Ok (VNewLine x)).

(** Neither a part of a line nor an [nl] tag follows. *)
Definition LinesEnd (ts : list str) : Prop :=
  ts = [] \/ exists t r q, ts = t :: r /\ TokenDenotes t q
    /\ forall v, q = Ok v -> ~ line_value v /\ forall x, v <> VNewLine x.

(** The lines at the start of a message, and the tokens after them; [None] when a
    token that follows a line or an [nl] tag panics. *)
Inductive ReadLines : list str -> option (list str * list str) -> Prop :=
| Rl_last line rest : Forall LineToken line -> LinesEnd rest ->
    ReadLines (line ++ rest) (Some ([List.concat line], rest))
| Rl_crash line t rest : Forall LineToken line -> PanicToken t -> ReadLines (line ++ t :: rest) None
| Rl_more line t ts ls rest : Forall LineToken line -> BreakToken t ->
    ReadLines ts (Some (ls, rest)) -> ReadLines (line ++ t :: ts) (Some (List.concat line :: ls, rest))
| Rl_more_crash line t ts : Forall LineToken line -> BreakToken t ->
    ReadLines ts None -> ReadLines (line ++ t :: ts) None.

(** Exactly [n] lines: further lines are dropped, missing ones are empty. *)
Definition exactly (n : Z) (ls : list str) : list str :=
  firstn (Z.to_nat n) (ls ++ repeat [] (Z.to_nat n)).

(** ** The whole pattern *)

Inductive Found := Lines (ls : list str) | NoMatch | Panics | Forever.

Inductive Extract (d : Dms) : list Task -> list str -> Found -> Prop :=
| Ex_nil ts : Extract d [] ts (Lines [])
| Ex_match v k ts ts' o : Seek v ts (Rest ts') -> Extract d k ts' o -> Extract d (Match v :: k) ts o
| Ex_differs v k ts : Seek v ts Differs -> Extract d (Match v :: k) ts NoMatch
| Ex_crash v k ts : Seek v ts Crashes -> Extract d (Match v :: k) ts Panics
| Ex_fill a k n ts ls rest more : Room d a n -> ReadLines ts (Some (ls, rest)) ->
    Extract d k rest (Lines more) -> Extract d (Fill a :: k) ts (Lines (exactly n ls ++ more))
| Ex_fails a k n ts ls rest o : Room d a n -> ReadLines ts (Some (ls, rest)) ->
    Extract d k rest o -> (forall more, o <> Lines more) -> Extract d (Fill a :: k) ts o
| Ex_panics a k n ts : Room d a n -> ReadLines ts None -> Extract d (Fill a :: k) ts Panics
| Ex_forever a k ts : Endless d (ar_font a) -> Extract d (Fill a :: k) ts Forever
| Ex_stop k ts : Extract d (Stop :: k) ts Panics.

(** A message that does not match gives no lines. *)
Definition outcome (o : Found) : M (list str) :=
  match o with Lines ls => Val ls | NoMatch => Val [] | Panics => Panic | Forever => Hang end.
