(** Specification vocabulary for operators: plain mathematics over [Z] and [bool], independent of the model
    functions.  The operator names are those of [Expression_Type] (src/bms/expression_type.hpp:14-49). *)
From Coq Require Import ZArith List Bool.
From Verif Require Import Prelude Types.
Open Scope Z_scope.

(** The ring operation an operator stands for (src/bms/expression_type.hpp:28-30). *)
Definition ring_op (op : expr_kind) : option (Z -> Z -> Z) :=
  match op with
  | binary_plus => Some Z.add
  | binary_minus => Some Z.sub
  | multiplication => Some Z.mul
  | _ => None
  end.

(** The Boolean function an operator applies to corresponding bits (src/bms/expression_type.hpp:36-38). *)
Definition bit_op (op : expr_kind) : option (bool -> bool -> bool) :=
  match op with
  | bitwise_and => Some andb
  | bitwise_or => Some orb
  | bitwise_xor => Some xorb
  | _ => None
  end.

(** The order relation a comparison stands for (src/bms/expression_type.hpp:21-26). *)
Definition order_relation (op : expr_kind) : option (Z -> Z -> Prop) :=
  match op with
  | equals => Some (fun x y => x = y)
  | not_equals => Some (fun x y => x <> y)
  | less_than => Some Z.lt
  | greater_than => Some Z.gt
  | less_or_equal => Some Z.le
  | greater_or_equal => Some Z.ge
  | _ => None
  end.

(** A width for which a [Uint] type can be constructed (src/bms/concrete_type.hpp:57-63). *)
Definition valid_width (w : Z) : Prop := 1 <= w <= 127.

(** A number representable in [Uint(w)] (src/bms/concrete_type.hpp:12-22). *)
Definition uint_range (w x : Z) : Prop := 0 <= x < 2 ^ w.
(** A number representable in [Int], i.e. in [__int128] (src/common/config.hpp:31). *)
Definition int_range (x : Z) : Prop := - 2 ^ 127 <= x < 2 ^ 127.

(** The operator/type combinations on which operator evaluation fails an internal assertion:
    the type check accepts them but evaluation has no case for them
    (src/bms/evaluation/operations.cpp:401, 421, 453). *)
Definition evaluation_aborts (l : cvalue) (op : expr_kind) (r : cvalue) : Prop :=
  match cv_type l, cv_type r with
  | TBool, TBool => op = equals \/ op = not_equals \/ op = conversion
  | TInt, TInt => op = conversion
  | TUint w, TInt | TInt, TUint w =>
      op = conversion /\ uint_range w (cv_int l) /\ uint_range w (cv_int r)
  | TUint v, TUint w => v = w /\ op = conversion
  | _, _ => False
  end.

(** Undefined behaviour of the C++ arithmetic on well-formed values: signed overflow, and shifting a
    128-bit integer by 128 or more (src/bms/evaluation/operations.cpp:379-380, 415-419, 449-451). *)
Definition evaluation_undefined (l : cvalue) (op : expr_kind) (r : cvalue) : Prop :=
  match cv_type l, cv_type r with
  | TInt, TInt =>
      (op = binary_plus /\ ~ int_range (cv_int l + cv_int r))
      \/ (op = binary_minus /\ ~ int_range (cv_int l - cv_int r))
      \/ (op = multiplication /\ ~ int_range (cv_int l * cv_int r))
      \/ ((op = division \/ op = remainder) /\ cv_int l = - 2 ^ 127 /\ cv_int r = -1)
  | TUint v, TUint w => v = w /\ (op = shift_left \/ op = shift_right) /\ 128 <= cv_int r
  | TUint w, TInt | TInt, TUint w =>
      (op = shift_left \/ op = shift_right) /\ 128 <= cv_int r
      /\ uint_range w (cv_int l) /\ uint_range w (cv_int r)
  | _, _ => False
  end.
