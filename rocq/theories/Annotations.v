(** Resolving annotations.  Models src/bms/analyze_annotations.cpp, src/bms/annotation.hpp and the
    annotation names of src/bms/util.cpp.

    Simplifications: the debug information carried by errors is dropped, only the error code is kept;
    the walk over the syntax tree (src/bms/analyze_annotations.cpp:343-404,573-578) is left out, the
    model starts at the annotations of one node. *)
From Coq Require Import ZArith Ascii String List Bool.
From Verif Require Import Prelude Text Literals Tables.
Import ListNotations.
Open Scope string_scope.
Open Scope list_scope.
Open Scope Z_scope.

(** [Annotation_Type] (src/bms/annotation.hpp:17-28). *)
Inductive annotation_type : Type :=
| an_immutable | an_inline | an_loop_variable | an_loop_step | an_unroll
| an_c_equivalent | an_java_equivalent | an_instantiate | an_false_if_unknown | an_remove_if_unused.

(** [Annotation_Parameter_Type] (src/bms/annotation.hpp:30). *)
Inductive parameter_type : Type := pt_boolean | pt_integer | pt_string.

(** Comparison of two [Annotation_Parameter_Type]s (src/bms/analyze_annotations.cpp:474). *)
Definition parameter_type_eqb (a b : parameter_type) : bool :=
  match a, b with
  | pt_boolean, pt_boolean | pt_integer, pt_integer | pt_string, pt_string => true
  | _, _ => false
  end.

(** [Annotation_Argument] (src/bms/annotation.hpp:36-40). *)
Inductive argument_value : Type := av_bool (b : bool) | av_int (z : Z) | av_string (s : text).

(** [astp::Annotation_Argument] (src/bms/parsing/astp.hpp:275-290): the key is empty for positional
    arguments, the quotes of string literals are stripped (src/bms/parsing/parse.cpp:907-911). *)
Record annotation_argument : Type :=
  AA { aa_key : text; aa_value : text; aa_value_type : token_type }.

(** [Construct] (src/bms/debug_info.hpp:10-36), the constructs that carry annotations; [co_other]
    stands for all remaining ones. *)
Inductive construct : Type :=
| co_function | co_constant | co_variable | co_if_statement | co_while_statement | co_assignment
| co_function_call_expression | co_other.

(** The error codes that resolving annotations reports (src/bms/analysis_error.hpp). *)
Inductive annotation_error : Type :=
| ae_invalid_integer_literal
| ae_unknown
| ae_not_applicable
| ae_unknown_parameter
| ae_argument_duplicate
| ae_argument_wrong_type
| ae_argument_wrong_value
| ae_missing_argument
| ae_too_many_arguments.

(** [parameter_type_of] (src/bms/analyze_annotations.cpp:17-33). *)
Definition parameter_type_of {E} (t : token_type) : outcome E parameter_type :=
  match t with
  | tk_keyword_true | tk_keyword_false => Ok pt_boolean
  | tk_binary_literal | tk_octal_literal | tk_decimal_literal | tk_hexadecimal_literal => Ok pt_integer
  | tk_string_literal => Ok pt_string
  | _ => Abort
  end.

(** The four subclasses of [Argument_Validator] (src/bms/analyze_annotations.cpp:122-174). *)
Inductive validator : Type := va_non_empty_string | va_c_version | va_unroll_limit | va_instantiation_width.

(** [Argument_Validator::type] as set by the constructors
    (src/bms/analyze_annotations.cpp:37,124,135,156,167). *)
Definition validator_type (v : validator) : parameter_type :=
  match v with
  | va_non_empty_string => pt_string
  | va_c_version | va_unroll_limit | va_instantiation_width => pt_integer
  end.

(** [validate] for integers (src/bms/analyze_annotations.cpp:59-62,139-151,159-162,170-173). *)
Definition validate_int (v : validator) (value : Z) : bool :=
  match v with
  | va_c_version =>
      (value =? 89) || (value =? 90) || (value =? 99) || (value =? 11) || (value =? 17)
      || (value =? 23) || (value =? 29)
  | va_unroll_limit => (value >? 0) && (value <=? 128)
  | va_instantiation_width => (value >? 0) && (value <=? 128)
  | va_non_empty_string => true
  end.

(** [validate] for strings (src/bms/analyze_annotations.cpp:63-66,127-130). *)
Definition validate_string (v : validator) (arg : text) : bool :=
  match v with
  | va_non_empty_string => match arg with [] => false | _ => true end
  | _ => true
  end.

(** [Argument_Validator::operator()] (src/bms/analyze_annotations.cpp:46-56).  [get] on the wrong
    alternative of the variant asserts (src/common/variant.hpp). *)
Definition run_validator {E} (v : validator) (arg : argument_value) : outcome E bool :=
  match validator_type v, arg with
  | pt_boolean, _ => Ok true
  | pt_integer, av_int z => Ok (validate_int v z)
  | pt_string, av_string s => Ok (validate_string v s)
  | _, _ => Abort
  end.

(** [Annotation_Parameter] (src/bms/analyze_annotations.cpp:69-90); [variadic] is never set. *)
Record parameter : Type :=
  Param { pa_name : text; pa_optional : bool; pa_validator : validator }.

(** [annotation_type_applicable_to] (src/bms/analyze_annotations.cpp:92-120). *)
Definition annotation_type_applicable_to (type : annotation_type) (c : construct) : bool :=
  match type with
  | an_immutable => match c with co_variable => true | _ => false end
  | an_inline => match c with co_variable | co_function_call_expression => true | _ => false end
  | an_loop_variable => match c with co_variable => true | _ => false end
  | an_loop_step => match c with co_assignment => true | _ => false end
  | an_unroll => match c with co_while_statement => true | _ => false end
  | an_c_equivalent => match c with co_function => true | _ => false end
  | an_java_equivalent => match c with co_function => true | _ => false end
  | an_instantiate => match c with co_function => true | _ => false end
  | an_false_if_unknown => match c with co_if_statement => true | _ => false end
  | an_remove_if_unused => match c with co_function => true | _ => false end
  end.

(** [parameters_of] and its tables (src/bms/analyze_annotations.cpp:176-211). *)
Definition parameters_of (type : annotation_type) : list parameter :=
  match type with
  | an_immutable | an_inline | an_loop_variable | an_loop_step | an_false_if_unknown
  | an_remove_if_unused => []
  | an_unroll => [Param (str "limit") false va_unroll_limit]
  | an_c_equivalent =>
      [Param (str "function") false va_non_empty_string;
       Param (str "include") true va_non_empty_string;
       Param (str "since") true va_c_version]
  | an_java_equivalent => [Param (str "method") false va_non_empty_string]
  | an_instantiate => [Param (str "n") false va_instantiation_width]
  end.

(** [parse_argument] (src/bms/analyze_annotations.cpp:220-252). *)
Definition parse_argument (a : annotation_argument) : outcome annotation_error argument_value :=
  assert_then (tk_is_literal (aa_value_type a))
  match aa_value_type a with
  | tk_keyword_false => Ok (av_bool false)
  | tk_keyword_true => Ok (av_bool true)
  | tk_binary_literal | tk_octal_literal | tk_decimal_literal | tk_hexadecimal_literal =>
      match parse_integer_literal (aa_value a) with
      | Some value => Ok (av_int value)
      | None => Err ae_invalid_integer_literal
      end
  | tk_string_literal =>
      assert_then (negb (starts_with (aa_value a) (str """"))) (Ok (av_string (aa_value a)))
  | _ => Abort
  end.

(** One pass of [match_positional] over parameters and the bits of [parameters_covered]
    (src/bms/analyze_annotations.cpp:287-297). *)
Fixpoint match_positional (ps : list parameter) (covered : list bool)
  : outcome annotation_error (parameter * list bool) :=
  match ps, covered with
  | p :: ps', b :: covered' =>
      if negb b then Ok (p, true :: covered')
      else let* '(q, cs) := match_positional ps' covered' in Ok (q, b :: cs)
  | _, _ => Err ae_too_many_arguments
  end.

(** [match_named] (src/bms/analyze_annotations.cpp:299-313). *)
Fixpoint match_named (key : text) (ps : list parameter) (covered : list bool)
  : outcome annotation_error (parameter * list bool) :=
  match ps, covered with
  | p :: ps', b :: covered' =>
      if negb (text_eqb (pa_name p) key)
      then let* '(q, cs) := match_named key ps' covered' in Ok (q, b :: cs)
      else if b then Err ae_argument_duplicate
      else Ok (p, true :: covered')
  | _, _ => Err ae_unknown_parameter
  end.

(** [Annotation_Parameter_Matcher::operator()] (src/bms/analyze_annotations.cpp:267-271). *)
Definition match_parameter (ps : list parameter) (covered : list bool) (a : annotation_argument)
  : outcome annotation_error (parameter * list bool) :=
  match aa_key a with
  | [] => match_positional ps covered
  | key => match_named key ps covered
  end.

(** [check_for_missing] (src/bms/analyze_annotations.cpp:273-284). *)
Fixpoint check_for_missing (ps : list parameter) (covered : list bool) : outcome annotation_error unit :=
  match ps, covered with
  | p :: ps', b :: covered' =>
      if negb (pa_optional p) && negb b then Err ae_missing_argument
      else check_for_missing ps' covered'
  | _, _ => Ok tt
  end.

(** The loop of [process_arguments] (src/bms/analyze_annotations.cpp:466-499): the values pushed to
    [result] and the final [parameters_covered]. *)
Fixpoint arguments_loop (ps : list parameter) (covered : list bool) (args : list annotation_argument)
  : outcome annotation_error (list argument_value * list bool) :=
  match args with
  | [] => Ok ([], covered)
  | a :: args' =>
      let* '(p, covered') := match_parameter ps covered a in
      let* argument_type := parameter_type_of (aa_value_type a) in
      if negb (parameter_type_eqb (validator_type (pa_validator p)) argument_type)
      then Err ae_argument_wrong_type
      else
        let* parsed := parse_argument a in
        let* accepted := run_validator (pa_validator p) parsed in
        if negb accepted then Err ae_argument_wrong_value
        else
          let* '(rest, covered'') := arguments_loop ps covered' args' in
          Ok (parsed :: rest, covered'')
  end.

(** [process_arguments] (src/bms/analyze_annotations.cpp:449-506).  The matcher starts with no
    parameter covered (a zero-initialised [std::bitset<10>], src/bms/analyze_annotations.cpp:255,264). *)
Definition process_arguments (type : annotation_type) (args : list annotation_argument)
  : outcome annotation_error (list argument_value) :=
  match type, args with
  | an_instantiate, [] => Err ae_missing_argument
  | _, _ =>
      let ps := parameters_of type in
      assert_then (Nat.leb (List.length ps) 10)
      (let* '(result, covered) := arguments_loop ps (repeat false (List.length ps)) args in
       let* _ := check_for_missing ps covered in
       Ok result)
  end.

(** [annotation_type_name] (src/bms/util.cpp:507-523): the enumerators as text. *)
Definition annotation_type_name (type : annotation_type) : text :=
  match type with
  | an_immutable => str "immutable"
  | an_inline => str "inline_"
  | an_loop_variable => str "loop_variable"
  | an_loop_step => str "loop_step"
  | an_unroll => str "unroll"
  | an_c_equivalent => str "c_equivalent"
  | an_java_equivalent => str "java_equivalent"
  | an_instantiate => str "instantiate"
  | an_false_if_unknown => str "false_if_unknown"
  | an_remove_if_unused => str "remove_if_unused"
  end.

(** The values of [Annotation_Type] in the order of the loop in [annotation_type_by_name]
    (src/bms/util.cpp:525-534). *)
Definition annotation_types : list annotation_type :=
  [an_immutable; an_inline; an_loop_variable; an_loop_step; an_unroll; an_c_equivalent;
   an_java_equivalent; an_instantiate; an_false_if_unknown; an_remove_if_unused].

(** [annotation_type_by_name] (src/bms/util.cpp:525-534). *)
Definition annotation_type_by_name (name : text) : option annotation_type :=
  find (fun t => text_eqb (annotation_type_name t) name) annotation_types.

(** [astp::Annotation] (src/bms/parsing/astp.hpp:253-272). *)
Record parsed_annotation : Type :=
  PAnn { pn_name : text; pn_arguments : list annotation_argument }.

(** [Annotation] (src/bms/annotation.hpp:44-47). *)
Record annotation : Type :=
  Ann { an_type : annotation_type; an_arguments : list argument_value }.

(** [do_resolve] (src/bms/analyze_annotations.cpp:406-447): the annotations of one node. *)
Fixpoint do_resolve (applied_to : construct) (annotations : list parsed_annotation)
  : outcome annotation_error (list annotation) :=
  match annotations with
  | [] => Ok []
  | n :: rest =>
      match annotation_type_by_name (pn_name n) with
      | None => Err ae_unknown
      | Some type =>
          if negb (annotation_type_applicable_to type applied_to) then Err ae_not_applicable
          else
            let* arguments := process_arguments type (pn_arguments n) in
            let* result := do_resolve applied_to rest in
            Ok (Ann type arguments :: result)
      end
  end.
