(** What [widths] and [fill] give for every pattern (C63), also for patterns with
    tags whose reading panics, with areas whose lines cannot be counted and with
    more than 255 fillable areas. *)

From Verif Require Import Base Str Multi Color Font Config Sign
  Spec_Multi Spec_Color Spec_Sign Spec_Render Spec_Layout Spec_Page Spec_Pattern.
Open Scope list_scope.

(** The areas whose end is reached; when reading is [cut] the last one has none. *)
Definition Reached (l : list Area) (cut : bool) (l' : list Area) : Prop :=
  if cut then exists a, l = l' ++ [a] else l' = l.

(** A fillable area whose lines cannot be counted; [j] fillable areas come before. *)
Definition EndlessAt (d : Dms) (l : list Area) (j : Z) : Prop :=
  exists l1 a l2, l = l1 ++ a :: l2 /\ Fillable d a /\ Endless d (ar_font a) /\ Fillables d l1 j.

(** ** Widths *)

(** A debug build panics at the 256th fillable area. *)
Definition Stuck (md : mode) (d : Dms) (l : list Area) : Prop :=
  exists j, EndlessAt d l j /\ (md = Release \/ j < 255).

Definition numbered_u8 (e : Z * Z * Z) : Z * Z * Z := let '(w, f, i) := e in (w, f, i mod 256).

Inductive WidthsAre (md : mode) (d : Dms) (l : list Area) (cut : bool) : M (list (Z * Z * Z)) -> Prop :=
| Wa_stuck : Stuck md d l -> WidthsAre md d l cut Hang
| Wa_many k : ~ Stuck md d l -> md = Debug -> Fillables d l k -> 255 < k -> WidthsAre md d l cut Panic
| Wa_cut : ~ Stuck md d l -> cut = true -> WidthsAre md d l cut Panic
| Wa_val k ws : ~ Stuck md d l -> cut = false -> Fillables d l k -> (md = Debug -> k <= 255) ->
    Widths d 0 l ws -> WidthsAre md d l cut (Val (map numbered_u8 ws)).

(** ** Filling *)

(** A malformed piece, or a tag that the sign does not support. *)
Definition Unfit (d : Dms) (x : result Value SyntaxError) : Prop :=
  match x with Ok v => ~ Supports d v | Err _ => True end.

(** [vs] are the values before the first piece that does not fit; [rest] starts
    with that piece. *)
Definition FitPart (d : Dms) (rs : list (result Value SyntaxError)) (vs : list Value)
    (rest : list (result Value SyntaxError)) : Prop :=
  rs = map Ok vs ++ rest /\ Forall (Supports d) vs /\ (rest = [] \/ exists x r, rest = x :: r /\ Unfit d x).

Definition broken_off (rest : list (result Value SyntaxError)) (cut : bool) : bool :=
  match rest with [] => cut | _ :: _ => true end.

(** [rs] is what the pieces of the pattern say up to its end or the cut. *)
Inductive FillIs (d : Dms) (rs : list (result Value SyntaxError)) (cut : bool) (lines : list str) : M str -> Prop :=
| Fi_stuck vs rest l l' j : FitPart d rs vs rest -> PatternAreas d vs l -> Reached l (broken_off rest cut) l' ->
    EndlessAt d l' j -> FillIs d rs cut lines Hang
| Fi_unfit vs rest l l' : FitPart d rs vs rest -> PatternAreas d vs l -> Reached l (broken_off rest cut) l' ->
    (forall j, ~ EndlessAt d l' j) -> rest <> [] -> FillIs d rs cut lines (Val [])
| Fi_cut vs l l' : FitPart d rs vs [] -> PatternAreas d vs l -> Reached l cut l' ->
    (forall j, ~ EndlessAt d l' j) -> cut = true -> FillIs d rs cut lines Panic
| Fi_no_np vs l : FitPart d rs vs [] -> PatternAreas d vs l ->
    (forall j, ~ EndlessAt d l j) -> cut = false -> ~ Lists d TNp -> FillIs d rs cut lines (Val [])
| Fi_val vs l s : FitPart d rs vs [] -> PatternAreas d vs l ->
    (forall j, ~ EndlessAt d l j) -> cut = false -> Lists d TNp -> Filled d [] l lines s -> FillIs d rs cut lines (Val s).
