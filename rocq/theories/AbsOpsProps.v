(** Final theorems about possibly unknown values: properties C09 and C10.
    [may_be a c] (AbsOpsSpec.v): [c] is one of the values [a] may stand for. *)
From Coq Require Import ZArith List Bool Lia.
From Verif Require Import Prelude Types Ops OpsSpec OpsFacts AbsOps AbsOpsSpec AbsOpsProofs.
Import ListNotations.
Open Scope Z_scope.

(** ** C09: evaluation of partially unknown operands over-approximates concrete evaluation *)

Theorem C09_binary_known_result : forall a op b x y v, may_be a x -> may_be b y ->
  value_evaluate_binary_operator a op b = Ok (known v) ->
  evaluate_binary_operator x op y = Ok v.
Proof. exact value_binary_known. Qed.

(** Missing: the choices of operands on which concrete evaluation itself aborts or is undefined
    (characterised in [C04_binary_abort_exactly] and [C04_binary_undefined_exactly]). *)
Theorem C09_binary_unknown_result_partial : forall a op b x y t, may_be a x -> may_be b y ->
  value_evaluate_binary_operator a op b = Ok (unknown_of_type t) ->
  defined (evaluate_binary_operator x op y) ->
  (exists v, evaluate_binary_operator x op y = Ok v /\ cv_type v = t)
  \/ (exists e, evaluate_binary_operator x op y = Err e).
Proof. exact value_binary_unknown. Qed.

Theorem C09_binary_error : forall a op b x y e, may_be a x -> may_be b y ->
  value_evaluate_binary_operator a op b = Err e ->
  exists e', evaluate_binary_operator x op y = Err e'.
Proof. exact value_binary_error. Qed.

Theorem C09_unary : forall op a x, may_be a x ->
  match value_evaluate_unary_operator op a with
  | Ok r => match av_val r with
            | Some z => evaluate_unary_operator op x = Ok (CV (av_type r) z)
            | None => (exists v, evaluate_unary_operator op x = Ok v /\ cv_type v = av_type r)
                      \/ evaluate_unary_operator op x = UB
            end
  | Err e => evaluate_unary_operator op x = Err e
  | Abort => False
  | UB => evaluate_unary_operator op x = UB
  end.
Proof. exact value_unary_sound. Qed.

Theorem C09_if_expression : forall a c b x y z, may_be a x -> may_be c y -> may_be b z ->
  match value_evaluate_if_expression a c b with
  | Ok r => match av_val r with
            | Some n => evaluate_if_expression x y z = Ok (CV (av_type r) n)
            | None => (exists v, evaluate_if_expression x y z = Ok v /\ cv_type v = av_type r)
                      \/ (exists e, evaluate_if_expression x y z = Err e)
            end
  | Err e => evaluate_if_expression x y z = Err e
  | _ => False
  end.
Proof. exact value_if_sound. Qed.

Theorem C09_conversion : forall a t c, wf_type t -> may_be a c ->
  match value_evaluate_conversion a t with
  | Ok r => match av_val r with
            | Some z => evaluate_conversion c t = Ok (CV (av_type r) z)
            | None => av_type r = t
                      /\ ((exists v, evaluate_conversion c t = Ok v /\ may_be r v)
                          \/ exists e, evaluate_conversion c t = Err e)
            end
  | Err e => evaluate_conversion c t = Err e
  | _ => False
  end.
Proof. exact value_convert_sound. Qed.

(** The analysis-time operator itself fails an assertion on operands of which one is unknown exactly in
    the cases [unknown_by_known_uint]: an unknown Uint divided or shifted by a known Uint. *)
Theorem C09_binary_abort_exactly : forall a op b, wf_avalue a -> wf_avalue b ->
  (av_val a = None \/ av_val b = None) ->
  ((value_evaluate_binary_operator a op b = Abort <-> unknown_by_known_uint a op b)
   /\ value_evaluate_binary_operator a op b <> UB).
Proof. exact value_binary_unknown_abort_iff. Qed.

Example C09_example :
  may_be (unknown_of_type (TUint 8)) (CV (TUint 8) 77) /\
  may_be (AV TInt (Some 3)) (CV TInt 3) /\
  value_evaluate_binary_operator (unknown_of_type (TUint 8)) binary_plus (AV TInt (Some 3))
    = Ok (unknown_of_type (TUint 8)) /\
  value_evaluate_binary_operator (unknown_of_type (TUint 8)) binary_plus (AV TInt (Some 300))
    = Err int_to_uint_range_error /\
  value_evaluate_binary_operator (unknown_of_type TInt) division (AV TInt (Some 0))
    = Err division_by_zero /\
  value_evaluate_if_expression (AV TInt (Some 3)) (AV TBool (Some 1)) (unknown_of_type (TUint 8))
    = Ok (AV (TUint 8) (Some 3)).
Proof.
  unfold may_be, wf_value; cbn [av_type av_val cv_type cv_int wf_type in_type_range unknown_of_type].
  repeat split; try lia; try discriminate; try congruence; vm_compute; reflexivity.
Qed.

(** As stated C09 is false: (1) the unknown result of comparing Bools stands for no value, since every
    concrete comparison aborts; (2) dividing an unknown Uint by the constant 2 aborts the analysis
    although every concrete division succeeds. *)
Theorem C09_refuted :
  (exists a b, value_evaluate_binary_operator a equals b = Ok (unknown_of_type TBool)
     /\ forall x y, may_be a x -> may_be b y -> evaluate_binary_operator x equals y = Abort)
  /\ (exists a b, value_evaluate_binary_operator a division b = Abort
     /\ forall x y, may_be a x -> may_be b y -> exists v, evaluate_binary_operator x division y = Ok v).
Proof. exact value_binary_refuted. Qed.

(** ** C10: the builtin assert *)

Theorem C10_assert_unknown : forall args,
  value_evaluate_builtin_function builtin_assert args =
  match args with
  | [AV TBool (Some z)] => if z =? 1 then Ok av_Void else Err assertion_fail
  | [AV TBool None] => Ok (unknown_of_type TVoid)
  | _ => Err type_error
  end.
Proof. exact value_builtin_assert_spec. Qed.

Example C10_example :
  value_evaluate_builtin_function builtin_assert [unknown_of_type TBool] = Ok (unknown_of_type TVoid) /\
  value_evaluate_builtin_function builtin_assert [AV TBool (Some 0)] = Err assertion_fail /\
  value_evaluate_builtin_function builtin_assert [] = Err type_error.
Proof. vm_compute. auto. Qed.

(** * Assumptions of the theorems above *)
Print Assumptions C09_binary_known_result.
Print Assumptions C09_binary_unknown_result_partial.
Print Assumptions C09_binary_error.
Print Assumptions C09_unary.
Print Assumptions C09_if_expression.
Print Assumptions C09_conversion.
Print Assumptions C09_binary_abort_exactly.
Print Assumptions C09_refuted.
Print Assumptions C10_assert_unknown.
