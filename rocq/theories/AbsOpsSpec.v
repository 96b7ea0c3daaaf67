(** Meaning of possibly unknown values, and the exceptional operand combinations. *)
From Coq Require Import ZArith List Bool.
From Verif Require Import Prelude Types Ops OpsSpec AbsOps.
Open Scope Z_scope.

(** [c] is one of the values that [a] may stand for (src/bms/value.hpp:11-13): the same type, in range,
    and the same number if that is known. *)
Definition may_be (a : avalue) (c : cvalue) : Prop :=
  wf_value c /\ cv_type c = av_type a /\ (forall z, av_val a = Some z -> cv_int c = z).

(** [a] is a possible result description: a constructible type and, if known, a number in range
    (src/bms/value.hpp:11-18). *)
Definition wf_avalue (a : avalue) : Prop :=
  wf_type (av_type a) /\ (forall z, av_val a = Some z -> in_type_range (av_type a) z).

(** A left operand that is not known, a known right operand, a division or shift on a Uint type: the
    combinations for which src/bms/evaluation/operations.cpp:524 and 528 call [as_int] on a Uint. *)
Definition unknown_by_known_uint (l : avalue) (op : expr_kind) (r : avalue) : Prop :=
  (op = division \/ op = remainder \/ op = shift_left \/ op = shift_right)
  /\ av_val l = None
  /\ exists w z, av_val r = Some z
     /\ uint_range w z
     /\ ((av_type l = TUint w /\ (av_type r = TUint w \/ av_type r = TInt))
         \/ (av_type l = TInt /\ av_type r = TUint w)).
