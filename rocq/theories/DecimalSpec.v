(** Decimal numbers: what digits mean. *)
From Coq Require Import ZArith Ascii String List Bool.
From Verif Require Import Prelude Text.
Import ListNotations.
Open Scope string_scope.
Open Scope list_scope.
Open Scope Z_scope.

(** The value of a digit character. *)
Definition digit_value (c : ascii) : option Z :=
  if (48 <=? code c) && (code c <=? 57) then Some (code c - 48) else None.

(** The number that digits denote, most significant first, continuing from [acc]. *)
Fixpoint decimal_from (acc : Z) (t : text) : option Z :=
  match t with
  | [] => Some acc
  | c :: t' =>
      match digit_value c with
      | Some d => decimal_from (10 * acc + d) t'
      | None => None
      end
  end.

(** A decimal number: at least one digit, no leading zero unless it is the only digit. *)
Definition denotes (t : text) (x : Z) : Prop :=
  decimal_from 0 t = Some x /\ t <> [] /\ (forall c r, t = c :: r -> r <> [] -> digit_value c <> Some 0).

(** The same with an optional minus sign, in front of numbers other than zero. *)
Definition denotes_signed (t : text) (x : Z) : Prop :=
  denotes t x \/ exists t', t = "-"%char :: t' /\ denotes t' (- x) /\ x < 0.

(** The numbers whose 19 lowest digits have no leading zero, and the next 19 neither, as far as there are
    more than 64 bits left: those for which padding makes no difference. *)
Definition full_parts (x : Z) : Prop :=
  x < 2 ^ 64 \/
  (10 ^ 18 <= x mod 10 ^ 19 /\ (x / 10 ^ 19 < 2 ^ 64 \/ 10 ^ 18 <= (x / 10 ^ 19) mod 10 ^ 19)).
