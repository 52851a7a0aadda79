(** Outcomes and machine arithmetic shared by the whole model. *)

From Coq Require Export ZArith List Bool Lia.
Export ListNotations.
Global Open Scope Z_scope.

(** Outcome of running a piece of Rust code: it returns, it panics (slice,
    index, overflow, [unwrap], [unreachable!], [unimplemented!],
    [debug_assert!]), or a loop in it does not end. *)
Inductive M (A : Type) : Type :=
| Val (a : A)
| Panic
| Hang.
Arguments Val {A} a.
Arguments Panic {A}.
Arguments Hang {A}.

(** Rust's [Result] (data, not an effect). *)
Inductive result (A E : Type) : Type :=
| Ok (a : A)
| Err (e : E).
Arguments Ok {A E} a.
Arguments Err {A E} e.

Definition bind {A B} (m : M A) (k : A -> M B) : M B :=
  match m with
  | Val a => k a
  | Panic => Panic
  | Hang => Hang
  end.

(** The [?] operator on a computation returning a [Result]. *)
Definition try {A B E} (m : M (result A E)) (k : A -> M (result B E))
  : M (result B E) :=
  match m with
  | Val (Ok a) => k a
  | Val (Err e) => Val (Err e)
  | Panic => Panic
  | Hang => Hang
  end.

Notation "'let!' x ':=' m 'in' k" := (bind m (fun x => k))
  (at level 200, x pattern, m at level 100, k at level 200, right associativity).
Notation "'let?' x ':=' m 'in' k" := (try m (fun x => k))
  (at level 200, x pattern, m at level 100, k at level 200, right associativity).

(** Build profile: overflow checks and [debug_assert!] are on in [Debug]; in
    [Release] arithmetic wraps and [debug_assert!] is skipped. *)
Inductive mode := Debug | Release.

(** Representable ranges of the Rust types. *)
Definition u8 (n : Z) : Prop := 0 <= n < 256.
Definition u16 (n : Z) : Prop := 0 <= n < 65536.
Definition u32 (n : Z) : Prop := 0 <= n < 4294967296.

(** Result [v] of an unchecked operation on an unsigned type with [2^bits]
    values. *)
Definition chk (md : mode) (bound v : Z) : M Z :=
  if (0 <=? v) && (v <? bound) then Val v
  else match md with Debug => Panic | Release => Val (v mod bound) end.

Definition chk8 (md : mode) (v : Z) : M Z := chk md 256 v.
Definition chk16 (md : mode) (v : Z) : M Z := chk md 65536 v.

(** The same for [i32]. *)
Definition chk_i32 (md : mode) (v : Z) : M Z :=
  if (-2147483648 <=? v) && (v <? 2147483648) then Val v
  else match md with
       | Debug => Panic
       | Release => Val ((v + 2147483648) mod 4294967296 - 2147483648)
       end.

(** [saturating_sub] on unsigned types. *)
Definition sat_sub (a b : Z) : Z := Z.max 0 (a - b).

Definition option_eqb {A} (eqb : A -> A -> bool) (a b : option A) : bool :=
  match a, b with
  | Some x, Some y => eqb x y
  | None, None => true
  | _, _ => false
  end.
