(** Type checking and evaluation of operators on concrete values.
    Models src/bms/evaluation/operations.cpp, lines 11-482. *)
From Coq Require Import ZArith List Bool.
From Verif Require Import Prelude Types.
Import ListNotations.
Open Scope Z_scope.

(** [get_common_type] (src/bms/evaluation/operations.cpp:11-27). *)
Definition get_common_type (lhs rhs : ctype) : outcome type_check_error ctype :=
  if ctype_eqb lhs rhs then Ok lhs
  else match lhs, rhs with
       | TUint _, TUint _ => Err incompatible_widths
       | TInt, TUint _ => Ok rhs
       | TUint _, TInt => Ok lhs
       | _, _ => Err incompatible_types
       end.

(** A failed type check surfaces as [Evaluation_Error_Code::type_error]
    (src/bms/evaluation/operations.cpp:46-48, 303-305, 348-350, 467-469, 478-480). *)
Definition or_type_error {A} (x : outcome type_check_error A) : outcome eval_error A :=
  match x with
  | Ok a => Ok a
  | Err _ => Err type_error
  | Abort => Abort
  | UB => UB
  end.

(** [convert_to_equal_type_impl] for [Concrete_Value] (src/bms/evaluation/operations.cpp:41-70). *)
Definition convert_to_equal_type (lhs rhs : cvalue) : outcome eval_error (cvalue * cvalue) :=
  let* common := or_type_error (get_common_type (cv_type lhs) (cv_type rhs)) in
  let* l := convert_to lhs common lossless_numeric in
  let* r := convert_to rhs common lossless_numeric in
  Ok (l, r).

(** [Builtin_Function] (src/bms/evaluation/builtin_function.hpp:11-14). *)
Inductive builtin : Type := builtin_assert.

(** [builtin_parameter_count] (src/bms/evaluation/builtin_function.hpp:21-28). *)
Definition builtin_parameter_count (f : builtin) : nat := match f with builtin_assert => 1%nat end.

(** [check_builtin_function] (src/bms/evaluation/operations.cpp:88-107, 272-290). *)
Definition check_builtin_function (f : builtin) (args : list ctype)
  : outcome type_check_error ctype :=
  if negb (Nat.eqb (builtin_parameter_count f) (length args)) then Err wrong_number_of_arguments
  else match f, args with
       | builtin_assert, a :: _ =>
           if negb (ctype_eqb a TBool) then Err wrong_argument_type else Ok TVoid
       | builtin_assert, [] => UB (* begin[0] of an empty range; excluded by the count check *)
       end.

(** [check_unary_operator] (src/bms/evaluation/operations.cpp:157-199). *)
Definition check_unary_operator (op : expr_kind) (value : ctype)
  : outcome type_check_error ctype :=
  if negb (is_prefix_unary op) then Err invalid_operator
  else match value with
       | TVoid => Err void_operation
       | TBool =>
           if is_unary_arithmetic op then Err bool_arithmetic
           else if expr_kind_eqb op bitwise_not then Err bool_bitwise
           else Ok value
       | TInt =>
           if expr_kind_eqb op bitwise_not then Err int_bitwise
           else if expr_kind_eqb op logical_not then Err int_logical
           else Ok value
       | TUint _ =>
           if expr_kind_eqb op logical_not then Err uint_logical else Ok value
       end.

(** [check_binary_operator] (src/bms/evaluation/operations.cpp:201-257). *)
Definition check_binary_operator (lhs : ctype) (op : expr_kind) (rhs : ctype)
  : outcome type_check_error ctype :=
  if negb (is_binary op) then Err invalid_operator
  else if ctype_eqb lhs TVoid || ctype_eqb rhs TVoid then Err void_operation
  else
    let* common := get_common_type lhs rhs in
    match common with
    | TVoid => Err void_operation
    | TBool =>
        if is_binary_arithmetic op then Err bool_arithmetic
        else if is_binary_bitwise op then Err bool_bitwise
        else if is_relational_comparison op then Err bool_relational_comparison
        else Ok TBool
    | TInt =>
        if is_binary_bitwise op then Err int_bitwise
        else if is_binary_logical op then Err int_logical
        else Ok (if is_binary_comparison op then TBool else common)
    | TUint _ =>
        (* lhs.width() != rhs.width() is impossible after lhs = rhs = common (line 214) *)
        if is_binary_logical op then Err uint_logical
        else Ok (if is_binary_comparison op then TBool else common)
    end.

(** [check_if_expression] (src/bms/evaluation/operations.cpp:259-270). *)
Definition check_if_expression (lhs condition rhs : ctype) : outcome type_check_error ctype :=
  if negb (ctype_eqb condition TBool) then Err condition_not_bool
  else get_common_type lhs rhs.

(** [evaluate_conversion] (src/bms/evaluation/operations.cpp:294-298). *)
Definition evaluate_conversion (v : cvalue) (to : ctype) : outcome eval_error cvalue :=
  convert_to v to lossless_numeric.

(** [evaluate_unary_operator] (src/bms/evaluation/operations.cpp:300-341). *)
Definition evaluate_unary_operator (op : expr_kind) (v : cvalue) : outcome eval_error cvalue :=
  let* _ := or_type_error (check_unary_operator op (cv_type v)) in
  match cv_type v with
  | TBool =>
      match op with
      | logical_not => Ok (CV TBool (Z.lxor (cv_int v) 1))
      | _ => Abort
      end
  | TInt =>
      match op with
      | unary_plus => Ok v
      | unary_minus => let* r := signed_result (- cv_int v) in Ok (CV TInt r)
      | _ => Abort
      end
  | TUint _ =>
      match op with
      | unary_plus => Ok v
      | unary_minus => transform_uint v (fun x => to_big_uint (- x))
      | bitwise_not => transform_uint v (fun x => to_big_uint (Z.lnot x))
      | _ => Abort
      end
  | TVoid => Abort
  end.

(** [Big_Int(bool)] (e.g. src/bms/evaluation/operations.cpp:385). *)
Definition bool_value (b : bool) : cvalue := CV TBool (if b then 1 else 0).

(** The lambda [compare_uint] (src/bms/evaluation/operations.cpp:358-361). *)
Definition compare_uint (l r : cvalue) (f : Z -> Z -> bool) : outcome eval_error cvalue :=
  Ok (bool_value (f (to_big_uint (cv_int l)) (to_big_uint (cv_int r)))).

(** The lambda [transform_uint] of [evaluate_binary_operator]
    (src/bms/evaluation/operations.cpp:363-369); [f] returns [UB] for an undefined shift. *)
Definition transform_uint2 (l r : cvalue) (f : Z -> Z -> outcome eval_error Z)
  : outcome eval_error cvalue :=
  let* result := f (to_big_uint (cv_int l)) (to_big_uint (cv_int r)) in
  if negb (type_width (cv_type l) =? 128) then
    if type_width (cv_type r) <? 128 then
      let mask := to_big_uint (to_big_uint (Z.shiftl 1 (type_width (cv_type r))) - 1) in
      Ok (CV (cv_type l) (to_big_int (Z.land result mask)))
    else UB
  else Ok (CV (cv_type l) (to_big_int result)).

(** Shift of a [Big_Uint] by a [Big_Uint]: undefined for amounts of 128 or more
    (src/bms/evaluation/operations.cpp:449,451). *)
Definition shift_defined (y : Z) (r : Z) : outcome eval_error Z :=
  if y <? 128 then Ok r else UB.

(** [evaluate_binary_operator] (src/bms/evaluation/operations.cpp:343-460). *)
Definition evaluate_binary_operator (lhs : cvalue) (op : expr_kind) (rhs : cvalue)
  : outcome eval_error cvalue :=
  let* _ := or_type_error (check_binary_operator (cv_type lhs) op (cv_type rhs)) in
  let* '(l, r) := convert_to_equal_type lhs rhs in
  assert_then (ctype_eqb (cv_type l) (cv_type r))
    (let a := cv_int l in
     let b := cv_int r in
     match cv_type l, op with
     | (TInt | TUint _), division =>
         if b =? 0 then Err division_by_zero
         else let* q := signed_result (Z.quot a b) in Ok (CV (cv_type l) q)
     | (TInt | TUint _), remainder =>
         (* a % b is undefined when a / b is not representable *)
         if b =? 0 then Err division_by_zero
         else let* _ := signed_result (Z.quot a b) in Ok (CV (cv_type l) (Z.rem a b))
     | (TInt | TUint _), equals => Ok (bool_value (a =? b))
     | (TInt | TUint _), not_equals => Ok (bool_value (negb (a =? b)))
     | TBool, logical_and => Ok (bool_value (negb (a =? 0) && negb (b =? 0)))
     | TBool, logical_or => Ok (bool_value (negb (a =? 0) || negb (b =? 0)))
     | TInt, less_than => Ok (bool_value (a <? b))
     | TInt, greater_than => Ok (bool_value (b <? a))
     | TInt, less_or_equal => Ok (bool_value (a <=? b))
     | TInt, greater_or_equal => Ok (bool_value (b <=? a))
     | TInt, binary_plus => let* s := signed_result (a + b) in Ok (CV TInt s)
     | TInt, binary_minus => let* s := signed_result (a - b) in Ok (CV TInt s)
     | TInt, multiplication => let* s := signed_result (a * b) in Ok (CV TInt s)
     | TUint _, less_than => compare_uint l r (fun x y => x <? y)
     | TUint _, greater_than => compare_uint l r (fun x y => y <? x)
     | TUint _, less_or_equal => compare_uint l r (fun x y => x <=? y)
     | TUint _, greater_or_equal => compare_uint l r (fun x y => y <=? x)
     | TUint _, binary_plus => transform_uint2 l r (fun x y => Ok (to_big_uint (x + y)))
     | TUint _, binary_minus => transform_uint2 l r (fun x y => Ok (to_big_uint (x - y)))
     | TUint _, multiplication => transform_uint2 l r (fun x y => Ok (to_big_uint (x * y)))
     | TUint _, bitwise_and => transform_uint2 l r (fun x y => Ok (Z.land x y))
     | TUint _, bitwise_or => transform_uint2 l r (fun x y => Ok (Z.lor x y))
     | TUint _, bitwise_xor => transform_uint2 l r (fun x y => Ok (Z.lxor x y))
     | TUint _, shift_left =>
         transform_uint2 l r (fun x y => shift_defined y (to_big_uint (Z.shiftl x y)))
     | TUint _, shift_right => transform_uint2 l r (fun x y => shift_defined y (Z.shiftr x y))
     | _, _ => Abort
     end).

(** [evaluate_if_expression] (src/bms/evaluation/operations.cpp:462-472). *)
Definition evaluate_if_expression (lhs condition rhs : cvalue) : outcome eval_error cvalue :=
  let* t := or_type_error (check_if_expression (cv_type lhs) (cv_type condition) (cv_type rhs)) in
  convert_to (if negb (cv_int condition =? 0) then lhs else rhs) t lossless_numeric.

(** [evaluate_builtin_function] with [unsafe_evaluate_builtin_function_impl]
    (src/bms/evaluation/operations.cpp:117-142, 474-482). *)
Definition evaluate_builtin_function (f : builtin) (args : list cvalue)
  : outcome eval_error cvalue :=
  let* _ := or_type_error (check_builtin_function f (map cv_type args)) in
  match f, args with
  | builtin_assert, a :: _ =>
      if negb (cv_int a =? 1) then Err assertion_fail else Ok cv_Void
  | builtin_assert, [] => UB
  end.
