(** Possibly unknown values and the operator overloads on them.
    Models src/bms/value.hpp and src/bms/evaluation/operations.cpp:484-567. *)
From Coq Require Import ZArith List Bool.
From Verif Require Import Prelude Types Ops.
Import ListNotations.
Open Scope Z_scope.

(** [Value] (src/bms/value.hpp:14-68): [None] stands for [m_known = false] (then [m_int_value] is 0). *)
Record avalue : Type := AV { av_type : ctype; av_val : option Z }.

(** [is_known] (src/bms/value.hpp:70-73). *)
Definition is_known (a : avalue) : bool := match av_val a with Some _ => true | None => false end.

(** Constructor from a [Concrete_Value] (src/bms/value.hpp:57-62). *)
Definition known (v : cvalue) : avalue := AV (cv_type v) (Some (cv_int v)).

(** [unknown_of_type] (src/bms/value.hpp:35-38). *)
Definition unknown_of_type (t : ctype) : avalue := AV t None.

(** [Value::Void] (src/bms/value.hpp:170). *)
Definition av_Void : avalue := AV TVoid (Some 0).

(** [concrete_value] (src/bms/value.hpp:136-140). *)
Definition concrete_value {E} (a : avalue) : outcome E cvalue :=
  match av_val a with Some z => Ok (CV (av_type a) z) | None => Abort end.

(** [as_bool] (src/bms/value.hpp:145-149). *)
Definition as_bool {E} (a : avalue) : outcome E bool :=
  match av_val a with
  | Some z => assert_then (ctype_eqb (av_type a) TBool) (Ok (negb (z =? 0)))
  | None => Abort
  end.

(** [as_int] (src/bms/value.hpp:154-158). *)
Definition as_int {E} (a : avalue) : outcome E Z :=
  match av_val a with
  | Some z => assert_then (ctype_eqb (av_type a) TInt) (Ok z)
  | None => Abort
  end.

(** [Value::convert_to] (src/bms/value.hpp:117-131). *)
Definition value_convert_to (a : avalue) (other : ctype) (c : conversion_type)
  : outcome eval_error avalue :=
  if negb (is_convertible_to (av_type a) other) then Err type_error
  else match av_val a with
       | None => Ok (unknown_of_type other)
       | Some z => let* r := convert_to (CV (av_type a) z) other c in Ok (known r)
       end.

(** [convert_to_equal_type_impl] for [Value] (src/bms/evaluation/operations.cpp:41-64, 72-75). *)
Definition value_convert_to_equal_type (lhs rhs : avalue) : outcome eval_error (avalue * avalue) :=
  let* common := or_type_error (get_common_type (av_type lhs) (av_type rhs)) in
  let* l := value_convert_to lhs common lossless_numeric in
  let* r := value_convert_to rhs common lossless_numeric in
  Ok (l, r).

(** [evaluate_conversion] (src/bms/evaluation/operations.cpp:486-490). *)
Definition value_evaluate_conversion (a : avalue) (to : ctype) : outcome eval_error avalue :=
  value_convert_to a to lossless_numeric.

(** [evaluate_unary_operator] (src/bms/evaluation/operations.cpp:492-503). *)
Definition value_evaluate_unary_operator (op : expr_kind) (a : avalue) : outcome eval_error avalue :=
  let* _ := or_type_error (check_unary_operator op (av_type a)) in
  if negb (is_known a) then Ok a
  else
    let* c := concrete_value a in
    let* r := evaluate_unary_operator op c in
    Ok (known r).

(** [evaluate_binary_operator] (src/bms/evaluation/operations.cpp:505-534). The operands [&&] and [||]
    of the C++ conditions are evaluated lazily, as written. *)
Definition value_evaluate_binary_operator (lhs : avalue) (op : expr_kind) (rhs : avalue)
  : outcome eval_error avalue :=
  let* t := or_type_error (check_binary_operator (av_type lhs) op (av_type rhs)) in
  let* '(l, r) := value_convert_to_equal_type lhs rhs in
  if is_known l && is_known r then
    let* a := concrete_value l in
    let* b := concrete_value r in
    let* res := evaluate_binary_operator a op b in
    Ok (known res)
  else
    let* _ :=
      (if is_known r then
         let* _ :=
           (match op with
            | division | remainder =>
                let* n := as_int r in if n =? 0 then Err division_by_zero else Ok tt
            | _ => Ok tt
            end) in
         match op with
         | shift_left | shift_right =>
             let* n := as_int r in
             if (n <? 0) || (type_width (av_type l) <=? n) then Err shift_too_much else Ok tt
         | _ => Ok tt
         end
       else Ok tt) in
    Ok (unknown_of_type t).

(** [evaluate_if_expression] (src/bms/evaluation/operations.cpp:536-549). *)
Definition value_evaluate_if_expression (lhs condition rhs : avalue) : outcome eval_error avalue :=
  let* t := or_type_error (check_if_expression (av_type lhs) (av_type condition) (av_type rhs)) in
  if negb (is_known condition) then Ok (unknown_of_type t)
  else
    let* b := as_bool condition in
    value_convert_to (if b then lhs else rhs) t lossless_numeric.

(** The lazily transformed range [args | transform(&Value::concrete_value)]
    (src/bms/evaluation/operations.cpp:562). *)
Fixpoint concrete_values {E} (args : list avalue) : outcome E (list cvalue) :=
  match args with
  | [] => Ok []
  | a :: rest =>
      let* c := concrete_value a in
      let* cs := concrete_values rest in
      Ok (c :: cs)
  end.

(** [evaluate_builtin_function] (src/bms/evaluation/operations.cpp:551-567). *)
Definition value_evaluate_builtin_function (f : builtin) (args : list avalue)
  : outcome eval_error avalue :=
  let* t := or_type_error (check_builtin_function f (map av_type args)) in
  if existsb (fun a => negb (is_known a)) args then Ok (unknown_of_type t)
  else
    let* cs := concrete_values args in
    let* r := evaluate_builtin_function f cs in
    Ok (known r).
