(** Shared conventions of the model: outcomes of C++ calls and 128-bit integers. *)
From Coq Require Import ZArith List Bool Lia.
Import ListNotations.
Open Scope Z_scope.

(** Outcome of a call to a C++ function returning [Result<T, E>] (src/common/result.hpp).
    [Ok]/[Err] are the two alternatives of the result.
    [Abort] is a thrown [Assertion_Error] (src/common/assert.hpp:20-31, active in every build) or any
    other C++ exception; [UB] is C++ undefined behaviour.  *)
Inductive outcome (E T : Type) : Type :=
| Ok (t : T)
| Err (e : E)
| Abort
| UB.
Arguments Ok {E T} t.
Arguments Err {E T} e.
Arguments Abort {E T}.
Arguments UB {E T}.

(** The C++ idiom [if (!r) return r.error(); ... *r ...] (e.g. src/bms/evaluation/operations.cpp:352-354). *)
Definition bind {E A B} (x : outcome E A) (f : A -> outcome E B) : outcome E B :=
  match x with
  | Ok a => f a
  | Err e => Err e
  | Abort => Abort
  | UB => UB
  end.

Declare Scope outcome_scope.
Delimit Scope outcome_scope with outcome.
Notation "'let*' x ':=' m 'in' k" := (bind m (fun x => k))
  (at level 200, x name, m at level 100, k at level 200, right associativity) : outcome_scope.
Notation "'let*' ' p ':=' m 'in' k" := (bind m (fun p => k))
  (at level 200, p pattern, m at level 100, k at level 200, right associativity) : outcome_scope.
Open Scope outcome_scope.

(** [BIT_MANIPULATION_ASSERT(b)] followed by [k] (src/common/assert.hpp:20-24). *)
Definition assert_then {E A} (b : bool) (k : outcome E A) : outcome E A :=
  if b then k else Abort.

(** The call ended normally: a value or an error code was returned. *)
Definition defined {E A} (x : outcome E A) : Prop :=
  match x with Ok _ | Err _ => True | Abort | UB => False end.

(** [Big_Uint = unsigned __int128] (src/common/config.hpp:29,73): arithmetic modulo 2^128. *)
Definition two128 : Z := 2 ^ 128.
(** Half of the range, the bound of [Big_Int = __int128] (src/common/config.hpp:31,72). *)
Definition two127 : Z := 2 ^ 127.

(** Conversion [Big_Uint(x)] (src/common/config.hpp:73): reduction modulo 2^128. *)
Definition to_big_uint (z : Z) : Z := z mod two128.

(** Conversion [Big_Int(x)] of a 128-bit unsigned value (src/common/config.hpp:72): two's complement. *)
Definition to_big_int (z : Z) : Z :=
  let u := z mod two128 in if u <? two127 then u else u - two128.

(** Values a [Big_Int] can hold (src/common/config.hpp:72). *)
Definition in_big_int (z : Z) : bool := (- two127 <=? z) && (z <? two127).

(** Signed [Big_Int] arithmetic: overflow is undefined behaviour in C++ (used by
    src/bms/evaluation/operations.cpp:321,379,415-419). *)
Definition signed_result {E} (z : Z) : outcome E Z := if in_big_int z then Ok z else UB.
