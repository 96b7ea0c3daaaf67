(** Types, expression kinds and values of the BMS language.
    Models src/bms/concrete_type.hpp, src/bms/expression_type.hpp, src/bms/concrete_value.hpp. *)
From Coq Require Import ZArith List Bool.
From Verif Require Import Prelude.
Open Scope Z_scope.

(** [Type_Type] and [Concrete_Type] (src/bms/concrete_type.hpp:13-22, 37-54). Only [Uint] carries a width;
    for the other types [m_width] is always 0 by the constructor's first assertion (line 61). *)
Inductive ctype : Type :=
| TVoid
| TBool
| TInt
| TUint (width : Z).

(** [uint_max_width] (src/common/config.hpp:70). *)
Definition uint_max_width : Z := 128.

(** Defaulted equality of [Concrete_Type]: memberwise (src/bms/concrete_type.hpp:65). *)
Definition ctype_eqb (a b : ctype) : bool :=
  match a, b with
  | TVoid, TVoid | TBool, TBool | TInt, TInt => true
  | TUint v, TUint w => Z.eqb v w
  | _, _ => false
  end.

(** Public constructor applied to [Type_Type::Uint] (src/bms/concrete_type.hpp:57-63). *)
Definition concrete_type_ctor {E} (width : Z) : outcome E ctype :=
  assert_then ((0 <? width) && (width <? uint_max_width)) (Ok (TUint width)).

(** [Concrete_Type::Uint(int)] (src/bms/concrete_type.hpp:45-50). *)
Definition concrete_type_Uint {E} (width : Z) : outcome E ctype :=
  assert_then (width <=? uint_max_width)
    (assert_then (1 <? width) (concrete_type_ctor width)).

(** [width()] (src/bms/concrete_type.hpp:76-79). *)
Definition type_width (t : ctype) : Z := match t with TUint w => w | _ => 0 end.
(** [is_integer()] (src/bms/concrete_type.hpp:114-117). *)
Definition is_integer (t : ctype) : bool := match t with TInt | TUint _ => true | _ => false end.
(** [is_uint()] (src/bms/concrete_type.hpp:120-123). *)
Definition is_uint (t : ctype) : bool := match t with TUint _ => true | _ => false end.

(** [is_convertible_to] (src/bms/concrete_type.hpp:81-84). *)
Definition is_convertible_to (self other : ctype) : bool :=
  ctype_eqb self other || match other, self with TUint _, TInt => true | _, _ => false end.

(** [get_mask] (src/bms/concrete_type.hpp:92-104); the mask of a 128-bit [Uint] is 0, as written. *)
Definition get_mask (t : ctype) : Z :=
  match t with
  | TVoid => 0
  | TBool => 1
  | TInt => to_big_uint (-1)
  | TUint w => if w =? 128 then 0 else to_big_uint (to_big_uint (Z.shiftl 1 w) - 1)
  end.

(** [can_represent] (src/bms/concrete_type.hpp:108-111); [~m] on [Big_Uint] is [2^128 - 1 - m]. *)
Definition can_represent (t : ctype) (value : Z) : bool :=
  negb (ctype_eqb t TVoid)
  && (Z.land (to_big_uint value) (two128 - 1 - get_mask t) =? 0).

(** [Expression_Type] (src/bms/expression_type.hpp:14-49), in declaration order. *)
Inductive expr_kind : Type :=
| if_expression
| conversion
| logical_and
| logical_or
| equals
| not_equals
| less_than
| greater_than
| less_or_equal
| greater_or_equal
| binary_plus
| binary_minus
| multiplication
| division
| remainder
| shift_left
| shift_right
| bitwise_and
| bitwise_or
| bitwise_xor
| unary_plus
| unary_minus
| logical_not
| bitwise_not
| function_call
| literal
| id_expr.

(** [Default_Underlying(type)]: the enumerator's number (src/bms/expression_type.hpp:14-49). *)
Definition expr_kind_index (k : expr_kind) : Z :=
  match k with
  | if_expression => 0 | conversion => 1 | logical_and => 2 | logical_or => 3 | equals => 4
  | not_equals => 5 | less_than => 6 | greater_than => 7 | less_or_equal => 8
  | greater_or_equal => 9 | binary_plus => 10 | binary_minus => 11 | multiplication => 12
  | division => 13 | remainder => 14 | shift_left => 15 | shift_right => 16 | bitwise_and => 17
  | bitwise_or => 18 | bitwise_xor => 19 | unary_plus => 20 | unary_minus => 21
  | logical_not => 22 | bitwise_not => 23 | function_call => 24 | literal => 25 | id_expr => 26
  end.

(** Comparison [==] on the enumeration (src/bms/expression_type.hpp:14). *)
Definition expr_kind_eqb (a b : expr_kind) : bool := expr_kind_index a =? expr_kind_index b.

(** [is_prefix_unary] (src/bms/expression_type.hpp:65-75). *)
Definition is_prefix_unary (k : expr_kind) : bool :=
  match k with unary_plus | unary_minus | logical_not | bitwise_not => true | _ => false end.
(** [is_equality_comparison] (src/bms/expression_type.hpp:77-80). *)
Definition is_equality_comparison (k : expr_kind) : bool :=
  match k with equals | not_equals => true | _ => false end.
(** [is_relational_comparison] (src/bms/expression_type.hpp:82-92). *)
Definition is_relational_comparison (k : expr_kind) : bool :=
  match k with less_than | greater_than | less_or_equal | greater_or_equal => true | _ => false end.
(** [is_binary_comparison] (src/bms/expression_type.hpp:94-97). *)
Definition is_binary_comparison (k : expr_kind) : bool :=
  is_equality_comparison k || is_relational_comparison k.
(** [is_unary_arithmetic] (src/bms/expression_type.hpp:99-102). *)
Definition is_unary_arithmetic (k : expr_kind) : bool :=
  match k with unary_plus | unary_minus => true | _ => false end.
(** [is_binary_arithmetic] (src/bms/expression_type.hpp:104-115). *)
Definition is_binary_arithmetic (k : expr_kind) : bool :=
  match k with
  | binary_plus | binary_minus | multiplication | division | remainder => true
  | _ => false
  end.
(** [is_binary_bitwise] (src/bms/expression_type.hpp:122-133). *)
Definition is_binary_bitwise (k : expr_kind) : bool :=
  match k with
  | bitwise_and | bitwise_or | bitwise_xor | shift_left | shift_right => true
  | _ => false
  end.
(** [is_binary_logical] (src/bms/expression_type.hpp:135-138). *)
Definition is_binary_logical (k : expr_kind) : bool :=
  match k with logical_and | logical_or => true | _ => false end.
(** [is_binary]: enumerators from [conversion] to [bitwise_xor]
    (src/bms/expression_type.hpp:145-149). *)
Definition is_binary (k : expr_kind) : bool :=
  (expr_kind_index conversion <=? expr_kind_index k)
  && (expr_kind_index k <=? expr_kind_index bitwise_xor).

(** [Evaluation_Error_Code] (src/bms/evaluation/evaluation_error.hpp:10-21). *)
Inductive eval_error : Type :=
| type_error
| division_by_zero
| shift_too_much
| assertion_fail
| int_to_uint_range_error.

(** The [Analysis_Error_Code]s used by type checking of operations
    (src/bms/evaluation/operations.cpp:11-270; enumeration in src/bms/analysis_error.hpp). *)
Inductive type_check_error : Type :=
| incompatible_widths
| incompatible_types
| wrong_number_of_arguments
| wrong_argument_type
| invalid_operator
| void_operation
| bool_arithmetic
| bool_bitwise
| bool_relational_comparison
| int_bitwise
| int_logical
| uint_logical
| condition_not_bool.

(** [Concrete_Value] (src/bms/concrete_value.hpp:20-42). *)
Record cvalue : Type := CV { cv_type : ctype; cv_int : Z }.

(** [Concrete_Value::Void], [True], [False] (src/bms/concrete_value.hpp:70-72). *)
Definition cv_Void : cvalue := CV TVoid 0.
Definition cv_True : cvalue := CV TBool 1. (* src/bms/concrete_value.hpp:71 *)
Definition cv_False : cvalue := CV TBool 0. (* src/bms/concrete_value.hpp:72 *)

(** [Conversion_Type] (src/bms/concrete_value.hpp:13-18). *)
Inductive conversion_type : Type := lossless_numeric | truncating_numeric.

(** [Concrete_Value::convert_to] (src/bms/concrete_value.hpp:42-60). *)
Definition convert_to (v : cvalue) (other : ctype) (c : conversion_type)
  : outcome eval_error cvalue :=
  if ctype_eqb (cv_type v) other then Ok v
  else if negb (is_convertible_to (cv_type v) other) then Err type_error
  else if is_uint other then
    let truncated := Z.land (to_big_uint (cv_int v)) (get_mask other) in
    match c with
    | lossless_numeric =>
        if negb (truncated =? to_big_uint (cv_int v)) then Err int_to_uint_range_error
        else Ok (CV other (to_big_int truncated))
    | truncating_numeric => Ok (CV other (to_big_int truncated))
    end
  else Abort.

(** [Concrete_Value::transform_uint] (src/bms/concrete_value.hpp:62-67). The shift [Big_Uint(1) << width]
    is undefined for a width of 128 or more. *)
Definition transform_uint (v : cvalue) (f : Z -> Z) : outcome eval_error cvalue :=
  assert_then (is_uint (cv_type v))
    (if type_width (cv_type v) <? 128 then
       let mask := to_big_uint (to_big_uint (Z.shiftl 1 (type_width (cv_type v))) - 1) in
       Ok (CV (cv_type v) (to_big_int (Z.land (to_big_uint (f (to_big_uint (cv_int v)))) mask)))
     else UB).

(** Representation invariant of values, used by the statements: the number stored lies in the
    value range of its type (documented at src/bms/concrete_type.hpp:12-22, 86-91). *)
Definition wf_type (t : ctype) : Prop := match t with TUint w => 0 < w < 128 | _ => True end.
(** Numbers a value of the type can hold (src/bms/concrete_type.hpp:12-22). *)
Definition in_type_range (t : ctype) (z : Z) : Prop :=
  match t with
  | TVoid => z = 0
  | TBool => z = 0 \/ z = 1
  | TInt => - 2 ^ 127 <= z < 2 ^ 127
  | TUint w => 0 <= z < 2 ^ w
  end.
(** A well-formed value: a constructible type and a number in its range
    (src/bms/concrete_type.hpp:57-63). *)
Definition wf_value (v : cvalue) : Prop := wf_type (cv_type v) /\ in_type_range (cv_type v) (cv_int v).
