(** Final theorems about operators on concrete values: properties C01 to C08 and part of C10.
    Specification vocabulary: [OpsSpec.v]; [wf_value] in [Types.v]. *)
From Coq Require Import ZArith List Bool Lia.
From Verif Require Import Prelude Types Ops OpsSpec OpsProofs OpsFacts.
Import ListNotations.
Open Scope Z_scope.

(** ** C01: Uint arithmetic is arithmetic modulo 2^N *)

Theorem C01_uint_ring_operators : forall w op f x y,
  valid_width w -> uint_range w x -> uint_range w y -> ring_op op = Some f ->
  exists r, evaluate_binary_operator (CV (TUint w) x) op (CV (TUint w) y) = Ok (CV (TUint w) r)
            /\ uint_range w r /\ exists k, r = f x y + k * 2 ^ w.
Proof. exact uint_ring_modulo. Qed.

Theorem C01_uint_bitwise_operators : forall w op f x y,
  valid_width w -> uint_range w x -> uint_range w y -> bit_op op = Some f ->
  exists r, evaluate_binary_operator (CV (TUint w) x) op (CV (TUint w) y) = Ok (CV (TUint w) r)
            /\ uint_range w r
            /\ forall i, Z.testbit r i = f (Z.testbit x i) (Z.testbit y i).
Proof. exact uint_bitwise_bits. Qed.

Theorem C01_uint_negation : forall w x, valid_width w -> uint_range w x ->
  exists r, evaluate_unary_operator unary_minus (CV (TUint w) x) = Ok (CV (TUint w) r)
            /\ uint_range w r /\ (x = 0 -> r = 0) /\ (x <> 0 -> r + x = 2 ^ w).
Proof. exact uint_unary_minus. Qed.

Theorem C01_uint_complement : forall w x, valid_width w -> uint_range w x ->
  exists r, evaluate_unary_operator bitwise_not (CV (TUint w) x) = Ok (CV (TUint w) r)
            /\ uint_range w r
            /\ forall i, 0 <= i < w -> Z.testbit r i = negb (Z.testbit x i).
Proof. exact uint_bitwise_not. Qed.

Example C01_example_wraps :
  valid_width 8 /\ uint_range 8 250 /\ uint_range 8 10 /\
  evaluate_binary_operator (CV (TUint 8) 250) binary_plus (CV (TUint 8) 10) = Ok (CV (TUint 8) 4) /\
  evaluate_binary_operator (CV (TUint 8) 3) binary_minus (CV (TUint 8) 5) = Ok (CV (TUint 8) 254) /\
  evaluate_binary_operator (CV (TUint 127) (2 ^ 127 - 1)) multiplication (CV (TUint 127) (2 ^ 127 - 1))
    = Ok (CV (TUint 127) 1).
Proof. unfold valid_width, uint_range. repeat split; try lia; vm_compute; reflexivity. Qed.

(** ** C02: integer division and remainder *)

Theorem C02_uint_division : forall w x y,
  valid_width w -> uint_range w x -> uint_range w y -> y <> 0 ->
  exists q r,
    evaluate_binary_operator (CV (TUint w) x) division (CV (TUint w) y) = Ok (CV (TUint w) q)
    /\ evaluate_binary_operator (CV (TUint w) x) remainder (CV (TUint w) y) = Ok (CV (TUint w) r)
    /\ uint_range w q /\ x = q * y + r /\ 0 <= r < y.
Proof. exact uint_division. Qed.

(** Missing from the English statement: the one pair (-2^127, -1), see [C02_int_division_refuted]. *)
Theorem C02_int_division_partial : forall x y, int_range x -> int_range y -> y <> 0 ->
  ~ (x = - 2 ^ 127 /\ y = -1) ->
  exists q r,
    evaluate_binary_operator (CV TInt x) division (CV TInt y) = Ok (CV TInt q)
    /\ evaluate_binary_operator (CV TInt x) remainder (CV TInt y) = Ok (CV TInt r)
    /\ int_range q /\ x = q * y + r /\ Z.abs r < Z.abs y /\ (r = 0 \/ Z.sgn r = Z.sgn x).
Proof. exact int_division. Qed.

Example C02_example_truncates :
  evaluate_binary_operator (CV TInt (-7)) division (CV TInt 2) = Ok (CV TInt (-3)) /\
  evaluate_binary_operator (CV TInt (-7)) remainder (CV TInt 2) = Ok (CV TInt (-1)) /\
  evaluate_binary_operator (CV (TUint 5) 29) division (CV (TUint 5) 4) = Ok (CV (TUint 5) 7).
Proof. vm_compute. auto. Qed.

(** A zero divisor never yields a value, for any integer operand types. *)
Theorem C02_zero_divisor : forall l r op, wf_value l -> wf_value r ->
  op = division \/ op = remainder ->
  is_integer (cv_type l) = true -> is_integer (cv_type r) = true -> cv_int r = 0 ->
  forall v, evaluate_binary_operator l op r <> Ok v.
Proof. exact division_zero. Qed.

(** ... and for equal types it is always [division_by_zero]. *)
Theorem C02_zero_divisor_error : forall t x op, wf_value (CV t x) -> is_integer t = true ->
  op = division \/ op = remainder ->
  evaluate_binary_operator (CV t x) op (CV t 0) = Err division_by_zero.
Proof. exact division_zero_same. Qed.

(** The full statement "for all Int pairs with a non-zero divisor" is false: the smallest Int divided
    by -1 is undefined behaviour (signed overflow in src/bms/evaluation/operations.cpp:379-380). *)
Theorem C02_int_division_refuted : exists x y, int_range x /\ int_range y /\ y <> 0
  /\ evaluate_binary_operator (CV TInt x) division (CV TInt y) = UB
  /\ evaluate_binary_operator (CV TInt x) remainder (CV TInt y) = UB.
Proof.
  exists (- 2 ^ 127), (-1). unfold int_range.
  repeat split; try (vm_compute; reflexivity); try discriminate; vm_compute; discriminate.
Qed.

(** ** C03: shifts *)

(** Missing: shift amounts of 128 or more, which are undefined behaviour ([C03_shift_refuted]). *)
Theorem C03_shift_left_partial : forall w x y,
  valid_width w -> uint_range w x -> uint_range w y -> y < 128 ->
  exists r,
    evaluate_binary_operator (CV (TUint w) x) shift_left (CV (TUint w) y) = Ok (CV (TUint w) r)
    /\ uint_range w r
    /\ forall i, 0 <= i < w -> Z.testbit r i = if i <? y then false else Z.testbit x (i - y).
Proof. exact shift_left_value. Qed.

Theorem C03_shift_right_partial : forall w x y,
  valid_width w -> uint_range w x -> uint_range w y -> y < 128 ->
  exists r,
    evaluate_binary_operator (CV (TUint w) x) shift_right (CV (TUint w) y) = Ok (CV (TUint w) r)
    /\ uint_range w r
    /\ forall i, 0 <= i -> Z.testbit r i = Z.testbit x (i + y).
Proof. exact shift_right_value. Qed.

Example C03_example :
  evaluate_binary_operator (CV (TUint 8) 181) shift_left (CV (TUint 8) 3) = Ok (CV (TUint 8) 168) /\
  evaluate_binary_operator (CV (TUint 8) 181) shift_right (CV (TUint 8) 3) = Ok (CV (TUint 8) 22).
Proof. vm_compute. auto. Qed.

(** Two parts of the statement are false: a shift by at least the width is not reported, and a shift by
    128 or more is undefined behaviour. *)
Theorem C03_shift_refuted :
  (exists w x y v, valid_width w /\ uint_range w x /\ uint_range w y /\ w <= y
     /\ evaluate_binary_operator (CV (TUint w) x) shift_left (CV (TUint w) y) = Ok v)
  /\ (exists w x y, valid_width w /\ uint_range w x /\ uint_range w y
     /\ evaluate_binary_operator (CV (TUint w) x) shift_left (CV (TUint w) y) = UB
     /\ evaluate_binary_operator (CV (TUint w) x) shift_right (CV (TUint w) y) = UB).
Proof.
  split.
  - exists 8, 1, 8, (CV (TUint 8) 0). unfold valid_width, uint_range.
    repeat split; try lia; vm_compute; reflexivity.
  - exists 8, 1, 200. unfold valid_width, uint_range.
    repeat split; try lia; vm_compute; reflexivity.
Qed.

(** In fact [shift_too_much] is reported for no operands at all. *)
Theorem C03_shift_too_much_never_reported : forall l op r, wf_value l -> wf_value r ->
  evaluate_binary_operator l op r <> Err shift_too_much.
Proof. exact never_shift_too_much. Qed.

(** ** C04: where evaluation leaves defined behaviour *)

(** [evaluation_aborts] and [evaluation_undefined] (OpsSpec.v) list the exceptions; nothing else goes
    wrong.  Missing from the English statement: exactly those cases. *)
Theorem C04_binary_defined_partial : forall l op r, wf_value l -> wf_value r ->
  ~ evaluation_aborts l op r -> ~ evaluation_undefined l op r ->
  (exists v, evaluate_binary_operator l op r = Ok v)
  \/ (exists e, evaluate_binary_operator l op r = Err e).
Proof. exact eval_binary_defined. Qed.

Theorem C04_binary_abort_exactly : forall l op r, wf_value l -> wf_value r ->
  (evaluate_binary_operator l op r = Abort <-> evaluation_aborts l op r).
Proof. exact eval_binary_abort_iff. Qed.

Theorem C04_binary_undefined_exactly : forall l op r, wf_value l -> wf_value r ->
  (evaluate_binary_operator l op r = UB <-> evaluation_undefined l op r).
Proof. exact eval_binary_ub_iff. Qed.

Theorem C04_unary_undefined_exactly : forall op v, wf_value v ->
  (~ defined (evaluate_unary_operator op v)
   <-> (cv_type v = TInt /\ op = unary_minus /\ cv_int v = - 2 ^ 127)).
Proof. exact eval_unary_undefined_iff. Qed.

Example C04_example_defined :
  let l := CV (TUint 8) 200 in let r := CV TInt 100 in
  wf_value l /\ wf_value r /\ ~ evaluation_aborts l multiplication r
  /\ ~ evaluation_undefined l multiplication r
  /\ evaluate_binary_operator l multiplication r = Ok (CV (TUint 8) 32).
Proof.
  unfold wf_value, evaluation_aborts, evaluation_undefined; cbn.
  repeat split; try lia; try (intuition discriminate); vm_compute; congruence.
Qed.

(** Witnesses: comparing two Bool values aborts, adding two Ints overflows. *)
Theorem C04_refuted :
  (exists l r, wf_value l /\ wf_value r
     /\ check_binary_operator (cv_type l) equals (cv_type r) = Ok TBool
     /\ evaluate_binary_operator l equals r = Abort)
  /\ (exists l r, wf_value l /\ wf_value r /\ evaluate_binary_operator l binary_plus r = UB)
  /\ (exists v, wf_value v /\ evaluate_unary_operator unary_minus v = UB).
Proof.
  split; [|split].
  - exists cv_True, cv_False. unfold wf_value; cbn. repeat split; auto.
  - exists (CV TInt (2 ^ 127 - 1)), (CV TInt 1). unfold wf_value; cbn.
    repeat split; try (vm_compute; reflexivity); vm_compute; discriminate.
  - exists (CV TInt (- 2 ^ 127)). unfold wf_value; cbn.
    repeat split; try (vm_compute; reflexivity); vm_compute; discriminate.
Qed.

(** ** C05: type checking predicts evaluation *)

Theorem C05_binary_type_check_success : forall l op r t, wf_value l -> wf_value r ->
  check_binary_operator (cv_type l) op (cv_type r) = Ok t ->
  evaluate_binary_operator l op r <> Err type_error
  /\ forall v, evaluate_binary_operator l op r = Ok v -> cv_type v = t.
Proof. exact binary_check_ok. Qed.

Theorem C05_binary_type_check_failure : forall l op r e,
  check_binary_operator (cv_type l) op (cv_type r) = Err e ->
  evaluate_binary_operator l op r = Err type_error.
Proof. exact binary_check_err. Qed.

Theorem C05_unary_type_check_success : forall op v t, wf_value v ->
  check_unary_operator op (cv_type v) = Ok t ->
  evaluate_unary_operator op v <> Err type_error
  /\ forall r, evaluate_unary_operator op v = Ok r -> cv_type r = t.
Proof. exact unary_check_ok. Qed.

Theorem C05_unary_type_check_failure : forall op v e,
  check_unary_operator op (cv_type v) = Err e ->
  evaluate_unary_operator op v = Err type_error.
Proof. exact unary_check_err. Qed.

Theorem C05_if_type_check : forall l c r, wf_value l -> wf_value c -> wf_value r ->
  match check_if_expression (cv_type l) (cv_type c) (cv_type r) with
  | Ok t => evaluate_if_expression l c r <> Err type_error
            /\ forall v, evaluate_if_expression l c r = Ok v -> cv_type v = t
  | Err _ => evaluate_if_expression l c r = Err type_error
  | _ => False
  end.
Proof. exact if_check_agrees. Qed.

(** Type checks themselves are total. *)
Theorem C05_type_checks_total : forall a op b,
  defined (check_binary_operator a op b) /\ defined (check_unary_operator op a).
Proof. exact checks_total. Qed.

Example C05_example :
  check_binary_operator (TUint 8) binary_plus TInt = Ok (TUint 8) /\
  evaluate_binary_operator (CV (TUint 8) 255) binary_plus (CV TInt 2) = Ok (CV (TUint 8) 1) /\
  check_binary_operator (TUint 8) binary_plus (TUint 9) = Err incompatible_widths /\
  check_binary_operator TBool binary_plus TBool = Err bool_arithmetic /\
  check_if_expression (TUint 3) TBool TInt = Ok (TUint 3).
Proof. vm_compute. auto. Qed.

(** ** C06: operators preserve well-formed values *)

Theorem C06_binary_preserves : forall l op r v, wf_value l -> wf_value r ->
  evaluate_binary_operator l op r = Ok v -> wf_value v.
Proof. exact eval_binary_wf. Qed.

Theorem C06_unary_preserves : forall op v r, wf_value v ->
  evaluate_unary_operator op v = Ok r -> wf_value r.
Proof. exact eval_unary_wf. Qed.

Theorem C06_conversion_preserves : forall v t c r, wf_value v -> wf_type t ->
  convert_to v t c = Ok r -> wf_value r /\ cv_type r = t.
Proof. exact convert_wf. Qed.

Theorem C06_if_preserves : forall l c r v, wf_value l -> wf_value c -> wf_value r ->
  evaluate_if_expression l c r = Ok v -> wf_value v.
Proof. exact eval_if_wf. Qed.

Theorem C06_builtin_preserves : forall f args v,
  evaluate_builtin_function f args = Ok v -> wf_value v.
Proof. exact eval_builtin_wf. Qed.

Example C06_example :
  wf_value (CV (TUint 4) 9) /\
  evaluate_unary_operator bitwise_not (CV (TUint 4) 9) = Ok (CV (TUint 4) 6) /\
  convert_to (CV TInt (-1)) (TUint 4) truncating_numeric = Ok (CV (TUint 4) 15) /\
  evaluate_if_expression (CV (TUint 4) 9) cv_False (CV TInt 7) = Ok (CV (TUint 4) 7).
Proof. unfold wf_value; cbn. repeat split; try lia; vm_compute; reflexivity. Qed.

(** ** C07: lossless conversion laws *)

(** Success exactly if the types are convertible and the number fits, and then the number is unchanged. *)
Theorem C07_conversion_exact : forall v t, wf_value v -> wf_type t ->
  (forall r, convert_to v t lossless_numeric = Ok r <->
     ((cv_type v = t \/ (cv_type v = TInt /\ exists w, t = TUint w))
      /\ in_type_range t (cv_int v) /\ r = CV t (cv_int v))).
Proof. exact convert_success_iff. Qed.

Theorem C07_conversion_errors : forall v t, wf_value v -> wf_type t ->
  match convert_to v t lossless_numeric with
  | Ok _ => is_convertible_to (cv_type v) t = true
  | Err type_error => is_convertible_to (cv_type v) t = false
  | Err int_to_uint_range_error =>
      is_convertible_to (cv_type v) t = true /\ ~ in_type_range t (cv_int v)
  | _ => False
  end.
Proof. exact convert_error_kind. Qed.

Theorem C07_conversion_identity : forall v c, convert_to v (cv_type v) c = Ok v.
Proof. exact convert_to_same. Qed.

Theorem C07_conversion_transitive : forall v t u v1, wf_value v -> wf_type t -> wf_type u ->
  convert_to v t lossless_numeric = Ok v1 ->
  is_convertible_to t u = true ->
  convert_to v1 u lossless_numeric = convert_to v u lossless_numeric.
Proof. exact convert_transitive. Qed.

Theorem C07_truncating_conversion : forall x w, valid_width w -> int_range x ->
  exists r, convert_to (CV TInt x) (TUint w) truncating_numeric = Ok (CV (TUint w) r)
            /\ uint_range w r /\ exists k, r = x + k * 2 ^ w.
Proof. exact convert_truncating. Qed.

Theorem C07_can_represent : forall w z, valid_width w -> int_range z ->
  (can_represent (TUint w) z = true <-> uint_range w z).
Proof. exact can_represent_uint. Qed.

Example C07_example :
  wf_value (CV TInt 300) /\ wf_type (TUint 9) /\
  convert_to (CV TInt 300) (TUint 9) lossless_numeric = Ok (CV (TUint 9) 300) /\
  convert_to (CV TInt 300) (TUint 8) lossless_numeric = Err int_to_uint_range_error /\
  convert_to (CV TInt 300) (TUint 8) truncating_numeric = Ok (CV (TUint 8) 44) /\
  convert_to (CV (TUint 8) 3) TInt lossless_numeric = Err type_error.
Proof.
  unfold wf_value, wf_type, in_type_range; cbn.
  repeat split; try lia; vm_compute; congruence.
Qed.

(** ** C08: comparisons *)

Theorem C08_comparison_meaning : forall t op R x y, is_integer t = true ->
  wf_value (CV t x) -> wf_value (CV t y) -> order_relation op = Some R ->
  exists b, evaluate_binary_operator (CV t x) op (CV t y) = Ok (CV TBool b)
            /\ (b = 1 <-> R x y) /\ (b = 0 <-> ~ R x y).
Proof. exact compare_correct. Qed.

(** Exactly one of [<], [==], [>]; [<=] negates [>], [>=] negates [<], [!=] negates [==]. *)
Theorem C08_trichotomy : forall t x y, is_integer t = true ->
  wf_value (CV t x) -> wf_value (CV t y) ->
  let holds op := evaluate_binary_operator (CV t x) op (CV t y) = Ok cv_True in
  let fails op := evaluate_binary_operator (CV t x) op (CV t y) = Ok cv_False in
  ((holds less_than /\ fails equals /\ fails greater_than)
   \/ (fails less_than /\ holds equals /\ fails greater_than)
   \/ (fails less_than /\ fails equals /\ holds greater_than))
  /\ (holds less_or_equal <-> fails greater_than)
  /\ (holds greater_or_equal <-> fails less_than)
  /\ (holds not_equals <-> fails equals).
Proof. exact compare_trichotomy. Qed.

Theorem C08_transitive : forall t x y z, is_integer t = true ->
  wf_value (CV t x) -> wf_value (CV t y) -> wf_value (CV t z) ->
  evaluate_binary_operator (CV t x) less_than (CV t y) = Ok cv_True ->
  evaluate_binary_operator (CV t y) less_than (CV t z) = Ok cv_True ->
  evaluate_binary_operator (CV t x) less_than (CV t z) = Ok cv_True.
Proof. exact compare_transitive. Qed.

Theorem C08_mixed_comparison : forall w x y op, valid_width w -> int_range x -> uint_range w y ->
  is_binary_comparison op = true ->
  evaluate_binary_operator (CV TInt x) op (CV (TUint w) y) =
    (let* c := evaluate_conversion (CV TInt x) (TUint w) in
     evaluate_binary_operator c op (CV (TUint w) y))
  /\ evaluate_binary_operator (CV (TUint w) y) op (CV TInt x) =
    (let* c := evaluate_conversion (CV TInt x) (TUint w) in
     evaluate_binary_operator (CV (TUint w) y) op c).
Proof. exact compare_mixed. Qed.

Example C08_example :
  evaluate_binary_operator (CV TInt (-5)) less_than (CV TInt 3) = Ok cv_True /\
  evaluate_binary_operator (CV (TUint 8) 200) less_or_equal (CV (TUint 8) 199) = Ok cv_False /\
  evaluate_binary_operator (CV TInt 200) equals (CV (TUint 8) 200) = Ok cv_True /\
  evaluate_binary_operator (CV TInt (-1)) less_than (CV (TUint 8) 200) = Err int_to_uint_range_error.
Proof. vm_compute. auto. Qed.

(** ** C10 on concrete values *)

Theorem C10_assert_concrete : forall args,
  evaluate_builtin_function builtin_assert args =
  match args with
  | [CV TBool z] => if z =? 1 then Ok cv_Void else Err assertion_fail
  | _ => Err type_error
  end.
Proof. exact builtin_assert_spec. Qed.

Example C10_concrete_example :
  evaluate_builtin_function builtin_assert [cv_True] = Ok cv_Void /\
  evaluate_builtin_function builtin_assert [cv_False] = Err assertion_fail /\
  evaluate_builtin_function builtin_assert [cv_True; cv_True] = Err type_error.
Proof. vm_compute. auto. Qed.

(** * Assumptions of the theorems above *)
Print Assumptions C01_uint_ring_operators.
Print Assumptions C01_uint_bitwise_operators.
Print Assumptions C01_uint_negation.
Print Assumptions C01_uint_complement.
Print Assumptions C02_uint_division.
Print Assumptions C02_int_division_partial.
Print Assumptions C02_zero_divisor.
Print Assumptions C02_zero_divisor_error.
Print Assumptions C02_int_division_refuted.
Print Assumptions C03_shift_left_partial.
Print Assumptions C03_shift_right_partial.
Print Assumptions C03_shift_refuted.
Print Assumptions C03_shift_too_much_never_reported.
Print Assumptions C04_binary_defined_partial.
Print Assumptions C04_binary_abort_exactly.
Print Assumptions C04_binary_undefined_exactly.
Print Assumptions C04_unary_undefined_exactly.
Print Assumptions C04_refuted.
Print Assumptions C05_binary_type_check_success.
Print Assumptions C05_binary_type_check_failure.
Print Assumptions C05_unary_type_check_success.
Print Assumptions C05_unary_type_check_failure.
Print Assumptions C05_if_type_check.
Print Assumptions C05_type_checks_total.
Print Assumptions C06_binary_preserves.
Print Assumptions C06_unary_preserves.
Print Assumptions C06_conversion_preserves.
Print Assumptions C06_if_preserves.
Print Assumptions C06_builtin_preserves.
Print Assumptions C07_conversion_exact.
Print Assumptions C07_conversion_errors.
Print Assumptions C07_conversion_identity.
Print Assumptions C07_conversion_transitive.
Print Assumptions C07_truncating_conversion.
Print Assumptions C07_can_represent.
Print Assumptions C08_comparison_meaning.
Print Assumptions C08_trichotomy.
Print Assumptions C08_transitive.
Print Assumptions C08_mixed_comparison.
Print Assumptions C10_assert_concrete.
