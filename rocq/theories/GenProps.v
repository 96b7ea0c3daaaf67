(** C34 and C35 for the generators of BMS, C and C++ code. *)
From Coq Require Import ZArith Ascii String List Bool Lia.
From Verif Require Import Prelude Types Ops Text Tables AbsOps Ast NameLookup CodeString CodeStringSpec
  CodeStringProofs Decimal GenBase GenBms GenC GenFacts.
Import ListNotations.
Open Scope string_scope.
Open Scope list_scope.

(** C34: the BMS generator either succeeds, and then has only appended, or leaves the output as it was. *)
Theorem C34_bms_generator : forall o l out out' r, generate_bms_code o l out = (out', r) ->
  (r = Ok tt /\ extends out out') \/ (r <> Ok tt /\ out' = out).
Proof.
  intros o l out out' r H. unfold generate_bms_code, bms_program in H.
  pose proof (attempt_failed false _ (GS out 0 true) (bms_program_appends o l)) as F.
  pose proof (attempt_appends false _ (bms_program_appends o l) (GS out 0 true)) as (E & _).
  destruct (attempt _ _) as [s r']. injection H as <- <-. cbn in *.
  destruct r' as [[]|e| |]; [left; auto | | |]; right; (split; [discriminate|]); destruct F as [F|F]; congruence.
Qed.

(** It never reports an error; what remains are failed assertions. *)
Theorem C34_bms_errors : forall o l out out' e, generate_bms_code o l out <> (out', Err e).
Proof.
  intros o l out out' e H. unfold generate_bms_code, bms_program in H.
  pose proof (attempt_appends false _ (bms_program_appends o l) (GS out 0 true)) as (_ & _ & _ & R).
  destruct (attempt _ _) as [s r']. injection H as <- ->. destruct e; [destruct R | discriminate R | destruct R].
Qed.

(** C34: so do the C and C++ generators. *)
Theorem C34_c_generator : forall cpp o l out out' r, generate_c_cpp_code cpp o l out = (out', r) ->
  (r = Ok tt /\ extends out out') \/ (r <> Ok tt /\ out' = out).
Proof.
  intros cpp o l out out' r H. unfold generate_c_cpp_code, c_program in H. cbv zeta in H.
  set (d := if cpp then _ else _) in H. set (cs := find_const _) in H.
  pose proof (c_declarations_appends o d cs l true) as A.
  pose proof (attempt_failed true _ (GS out 0 true) A) as F.
  pose proof (attempt_appends true _ A (GS out 0 true)) as (E & _).
  destruct (attempt _ _) as [s r']. injection H as <- <-. cbn in *.
  destruct r' as [[]|e| |]; [left; auto | | |]; right; (split; [discriminate|]); destruct F as [F|F]; congruence.
Qed.

(** The only error that reaches the caller is an unsupported width. *)
Theorem C34_c_errors : forall cpp o l out out' e, generate_c_cpp_code cpp o l out = (out', Err e) ->
  e = ge_unsupported_integer_width.
Proof.
  intros cpp o l out out' e H. unfold generate_c_cpp_code, c_program in H. cbv zeta in H.
  set (d := if cpp then _ else _) in H. set (cs := find_const _) in H.
  pose proof (attempt_appends true _ (c_declarations_appends o d cs l true) (GS out 0 true)) as (_ & _ & _ & R).
  destruct (attempt _ _) as [s r']. injection H as <- ->. destruct e; [destruct R | reflexivity | destruct R].
Qed.

(** C35: spans stay well-formed. *)
Theorem C35_bms_generator_partial : forall o l out,
  well_spanned out -> well_spanned (fst (generate_bms_code o l out)).
Proof.
  intros o l out H. unfold generate_bms_code, bms_program.
  pose proof (attempt_appends false _ (bms_program_appends o l) (GS out 0 true)) as (_ & W & _).
  destruct (attempt _ _) as [s r']. exact (W H).
Qed.

Theorem C35_c_generator_partial : forall cpp o l out,
  well_spanned out -> well_spanned (fst (generate_c_cpp_code cpp o l out)).
Proof.
  intros cpp o l out H. unfold generate_c_cpp_code, c_program. cbv zeta.
  set (d := if cpp then _ else _). set (cs := find_const _).
  pose proof (attempt_appends true _ (c_declarations_appends o d cs l true) (GS out 0 true)) as (_ & W & _).
  destruct (attempt _ _) as [s r']. exact (W H).
Qed.

(** A function of two statements, the second of which needs a 3-bit integer. *)
Definition sample_function (width : Z) : declaration :=
  let int := Type_Node None tt_Int None None in
  let one := ELiteral (Some (AV TInt (Some 1%Z))) (str "1") tk_decimal_literal in
  Decl_Function (Func (str "f") 1%positive None [Param (str "x") 2%positive int] int None
    (SBlock None
      [SAssign None (str "x") (Some (LParameter 2%positive))
         (EBinary None binary_plus (EId None (str "x") (Some (LParameter 2%positive)) None) one);
       SLet (Some (AV (TUint width) None)) (str "y") 3%positive None None;
       SControl None ctl_return (Some (EId None (str "x") (Some (LParameter 2%positive)) None))])
    false None unanalyzed).

Example C34_c_example :
  let out := append_text (str "// before") empty_code in
  generate_c_cpp_code false default_options [sample_function 3] out = (out, Err ge_unsupported_integer_width) /\
  cs_text (fst (generate_c_cpp_code false default_options [sample_function 8] out)) =
    str "// beforeint f(x: int) {" ++ [ch_newline] ++
    str "    x = x + 1;" ++ [ch_newline] ++
    str "    uint8_t y;" ++ [ch_newline] ++
    str "    return x;" ++ [ch_newline] ++
    str "}" ++ [ch_newline].
Proof. split; vm_compute; reflexivity. Qed.

Example C34_bms_example :
  cs_text (fst (generate_bms_code default_options [sample_function 3] empty_code)) =
    str "function f(x: Int) -> Int {" ++ [ch_newline] ++
    str "    x = x + 1;" ++ [ch_newline] ++
    str "    let y;" ++ [ch_newline] ++
    str "    return x;" ++ [ch_newline] ++
    str "}" ++ [ch_newline].
Proof. vm_compute. reflexivity. Qed.

(** * Assumptions of the theorems above *)
Print Assumptions C34_bms_generator.
Print Assumptions C34_bms_errors.
Print Assumptions C34_c_generator.
Print Assumptions C34_c_errors.
Print Assumptions C35_bms_generator_partial.
Print Assumptions C35_c_generator_partial.
