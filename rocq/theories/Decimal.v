(** Decimal numbers.  Models [to_string] for 128-bit integers (src/common/diagnostics.cpp:30-42), which
    the C generator and the diagnostics use. *)
From Coq Require Import ZArith Ascii String List Bool.
From Verif Require Import Prelude Text.
Import ListNotations.
Open Scope string_scope.
Open Scope list_scope.
Open Scope Z_scope.

(** A decimal digit, as [std::to_string] writes it (src/common/diagnostics.cpp:35-36). *)
Definition digit (d : Z) : ascii := ascii_of_N (Z.to_N (48 + d)).

(** [std::to_string] for non-negative integers (src/common/diagnostics.cpp:35-36) of at most [fuel] digits;
    part of the standard library, so this is what it is documented to do. *)
Fixpoint digits (fuel : nat) (x : Z) : text :=
  match fuel with
  | O => []
  | S fuel' => if x <? 10 then [digit x] else digits fuel' (x / 10) ++ [digit (x mod 10)]
  end.

(** [std::to_string] of a [Uint64] (src/common/diagnostics.cpp:35), which has at most 20 digits. *)
Definition std_to_string (x : Z) : text := digits 20 x.

(** [exp10_19] (src/common/diagnostics.cpp:33). *)
Definition exp10_19 : Z := 10000000000000000000.

(** [to_string(Uint128)] (src/common/diagnostics.cpp:30-37).  The quotient by [exp10_19] is less than
    2^65, so there are at most two recursive calls; [fuel] counts them. *)
Fixpoint to_string_fuel (fuel : nat) (x : Z) : text :=
  if x <=? 2 ^ 64 - 1 then std_to_string x
  else match fuel with
       | O => []
       | S fuel' => to_string_fuel fuel' (x / exp10_19) ++ std_to_string (x mod exp10_19)
       end.
(** src/common/diagnostics.cpp:30-37, with enough fuel. *)
Definition to_string_uint (x : Z) : text := to_string_fuel 2 x.

(** [to_string(Int128)] (src/common/diagnostics.cpp:39-42). *)
Definition to_string_int (x : Z) : text :=
  if 0 <=? x then to_string_uint (to_big_uint x) else str "-" ++ to_string_uint (to_big_uint (- x)).
