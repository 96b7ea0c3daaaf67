(** The errors of the analysis: how they are built, and how they are printed.  Models
    src/bms/analysis_error.hpp, the places of src/bms/analyze.cpp, src/bms/analyze_name_lookup.cpp,
    src/bms/analyze_annotations.cpp and src/bms/vm/codegen.cpp that build one, and the part of
    src/common/diagnostics.cpp that prints one.

    The file of a [Source_Position] is that of the program, which is passed to the printer; a node is
    modelled by what an error keeps of it.  [union] members that were not written are a case of their own. *)
From Coq Require Import ZArith Ascii String List Bool.
From Verif Require Import Prelude Types Ops Text Tables Decimal AbsOps Tokenizer VM Annotations Diagnostics.
Import ListNotations.
Open Scope string_scope.
Open Scope list_scope.
Open Scope Z_scope.

(** [Analysis_Error_Code] (src/bms/analysis_error.hpp:17-131). *)
Inductive error_code : Type :=
| ac_failed_to_define_global_const
| ac_failed_to_define_function
| ac_failed_to_define_parameter
| ac_failed_to_define_variable
| ac_reference_to_undefined_variable
| ac_assignment_of_undefined_variable
| ac_call_to_undefined_function
| ac_width_not_integer
| ac_width_invalid
| ac_expected_constant_expression
| ac_let_variable_in_constant_expression
| ac_parameter_in_constant_expression
| ac_function_in_expression
| ac_execution_error
| ac_evaluation_error
| ac_condition_not_bool
| ac_invalid_integer_literal
| ac_assigning_parameter
| ac_assigning_function
| ac_assigning_const
| ac_call_non_function
| ac_wrong_number_of_arguments
| ac_codegen_call_to_unanalyzed
| ac_width_deduction_from_non_uint
| ac_static_assert_expression_not_bool
| ac_static_assertion_failed
| ac_requires_clause_not_bool
| ac_requires_clause_not_satisfied
| ac_use_of_undefined_variable
| ac_use_of_undefined_constant
| ac_empty_return_in_non_void_function
| ac_invalid_operator
| ac_void_operation
| ac_bool_arithmetic
| ac_bool_bitwise
| ac_bool_relational_comparison
| ac_int_bitwise
| ac_int_logical
| ac_uint_logical
| ac_non_bool_logical
| ac_incompatible_types
| ac_incompatible_widths
| ac_wrong_argument_type
| ac_break_outside_loop
| ac_continue_outside_loop
| ac_annotation_unknown
| ac_annotation_not_applicable
| ac_annotation_too_many_arguments
| ac_annotation_unknown_parameter
| ac_annotation_argument_duplicate
| ac_annotation_argument_wrong_type
| ac_annotation_argument_wrong_value
| ac_annotation_missing_argument.

(** [Construct] (src/bms/debug_info.hpp:10-36). *)
Inductive construct : Type :=
| dc_program
| dc_function
| dc_parameter
| dc_type
| dc_constant
| dc_variable
| dc_static_assertion
| dc_if_statement
| dc_while_statement
| dc_break_statement
| dc_continue_statement
| dc_return_statement
| dc_assignment
| dc_block_statement
| dc_conversion_expression
| dc_if_expression
| dc_binary_expression
| dc_prefix_expression
| dc_function_call_expression
| dc_id_expression
| dc_literal
| dc_builtin_function
| dc_annotation
| dc_annotation_argument
| dc_annotation_parameter.

(** [Debug_Info] (src/bms/debug_info.hpp:38-60). *)
Record debug_info : Type :=
  DebugInfo { di_construct : construct; di_pos : option position; di_name : text }.

(** [Analysis_Error_Detailed_Code] (src/bms/analysis_error.hpp:149-177).  [d_execution_lost] is
    [execution_error] with a [union] whose member [execution] was not written. *)
Inductive detailed_code : Type :=
| d_plain (c : error_code)
| d_evaluation (e : eval_error)
| d_execution (e : exec_code)
| d_execution_lost.

(** [Annotation_Parameter_Wrong_Argument] (src/bms/analysis_error.hpp:135-145). *)
Record wrong_argument : Type := WrongArgument {
  wa_name : text; wa_expected : parameter_type; wa_actual : parameter_type; wa_constraints : text }.

(** [m_extras] (src/bms/analysis_error.hpp:181). *)
Inductive extras : Type :=
| ex_none
| ex_comparison (c : comparison_failure)
| ex_wrong_argument (w : wrong_argument).

(** [Analysis_Error_Data] (src/bms/analysis_error.hpp:179-193). *)
Record analysis_error : Type := AnalysisError {
  ae_code : detailed_code;
  ae_extras : extras;
  ae_fail : debug_info;
  ae_cause : option debug_info;
  ae_value : option avalue;
  ae_type : option ctype
}.

(** [code] (src/bms/analysis_error.hpp:216-219). *)
Definition code_of (e : analysis_error) : error_code :=
  match ae_code e with
  | d_plain c => c
  | d_evaluation _ => ac_evaluation_error
  | d_execution _ | d_execution_lost => ac_execution_error
  end.

(** * Building an error *)

(** The constructor for an [Analysis_Error_Code] (src/bms/analysis_error.hpp:302-307) with [fail] and
    [cause] (350-430). *)
Definition error_at {E} (c : error_code) (fail : debug_info) (cause : option debug_info)
  : outcome E analysis_error :=
  match c with
  | ac_evaluation_error | ac_execution_error => Abort
  | _ => Ok (AnalysisError (d_plain c) ex_none fail cause None None)
  end.

(** The constructor for an [Evaluation_Error_Code] (src/bms/analysis_error.hpp:309-312). *)
Definition evaluation_error_at (e : eval_error) (fail : debug_info) (cause : option debug_info)
  : analysis_error :=
  AnalysisError (d_evaluation e) ex_none fail cause None None.

(** The constructor for an [Execution_Error] (src/bms/analysis_error.hpp:326-340). *)
Definition execution_error_at (c : exec_code) (comparison : option comparison_failure) (fail : debug_info)
  (cause : option debug_info) : analysis_error :=
  AnalysisError
    match c with x_evaluation e => d_evaluation e | _ => d_execution_lost end
    match comparison with Some f => ex_comparison f | None => ex_none end
    fail cause None None.

(** [comparison_failure], [wrong_argument] and [value] (src/bms/analysis_error.hpp:348-364). *)
Definition with_extras (x : extras) (e : analysis_error) : analysis_error :=
  AnalysisError (ae_code e) x (ae_fail e) (ae_cause e) (ae_value e) (ae_type e).
Definition with_value (v : avalue) (e : analysis_error) : analysis_error := (* src/bms/analysis_error.hpp:360-364 *)
  AnalysisError (ae_code e) (ae_extras e) (ae_fail e) (ae_cause e) (Some v) (ae_type e).

(** The codes of type checking, as [Analysis_Error_Code]s (src/bms/evaluation/operations.cpp:11-290). *)
Definition code_of_check (e : type_check_error) : error_code :=
  match e with
  | incompatible_widths => ac_incompatible_widths
  | incompatible_types => ac_incompatible_types
  | wrong_number_of_arguments => ac_wrong_number_of_arguments
  | wrong_argument_type => ac_wrong_argument_type
  | invalid_operator => ac_invalid_operator
  | void_operation => ac_void_operation
  | bool_arithmetic => ac_bool_arithmetic
  | bool_bitwise => ac_bool_bitwise
  | bool_relational_comparison => ac_bool_relational_comparison
  | int_bitwise => ac_int_bitwise
  | int_logical => ac_int_logical
  | uint_logical => ac_uint_logical
  | condition_not_bool => ac_condition_not_bool
  end.

(** A node of a known kind: the position, and the name, which is empty for most kinds
    (src/bms/ast.hpp:59-62, 247-250, 385-388, 436-439, 482-485 and likewise). *)
Record place : Type := Place { pl_pos : position; pl_name : text }.

(** The [Debug_Info] of such a node (src/bms/ast.cpp:681-684). *)
Definition node (c : construct) (p : place) : debug_info := DebugInfo c (Some (pl_pos p)) (pl_name p).

(** A node of any kind (src/bms/ast.cpp:681-684). *)
Record any_node : Type := AnyNode { an_construct : construct; an_place : place }.
Definition node_of (n : any_node) : debug_info := node (an_construct n) (an_place n). (* src/bms/ast.cpp:681-684 *)

(** What a name stands for ([Lookup_Result_Debug_Info], src/bms/ast.cpp:651-667); the names of builtin
    functions are those of src/bms/util.cpp:476-482. *)
Inductive declared : Type :=
| declared_node (n : any_node)
| declared_parameter (p : place)
| declared_builtin (b : builtin).
Definition declared_info (d : declared) : debug_info := (* src/bms/ast.cpp:651-667 *)
  match d with
  | declared_node n => node_of n
  | declared_parameter p => node dc_parameter p
  | declared_builtin builtin_assert => DebugInfo dc_builtin_function None (str "assert")
  end.

(** The places that build an error, with what they build it from. *)
Inductive site : Type :=
| st_requires_not_bool (clause : any_node) (function : place) (* src/bms/analyze.cpp:160-163 *)
| st_requires_not_satisfied (clause : any_node) (function : place) (* src/bms/analyze.cpp:166-171 *)
| st_width_not_integer (width : any_node) (* src/bms/analyze.cpp:224-226 *)
| st_width_invalid (width : any_node) (value : Z) (* src/bms/analyze.cpp:230-233 *)
| st_const_incompatible (constant : place) (initializer : any_node) (* src/bms/analyze.cpp:283-286 *)
| st_const_conversion (e : eval_error) (constant : place) (initializer : any_node) (* src/bms/analyze.cpp:291-294 *)
| st_let_incompatible (variable : place) (initializer : any_node) (* src/bms/analyze.cpp:344-347 *)
| st_static_assert_not_bool (assertion : place) (expression : any_node) (* src/bms/analyze.cpp:374-377 *)
| st_static_assertion_failed (assertion : place) (expression : any_node)
    (comparison : option comparison_failure) (* src/bms/analyze.cpp:380-387 *)
| st_if_condition (statement : place) (condition : any_node) (* src/bms/analyze.cpp:406-409 *)
| st_while_condition (statement : place) (condition : any_node) (* src/bms/analyze.cpp:439-442 *)
| st_break_outside_loop (statement : place) (* src/bms/analyze.cpp:463-469 *)
| st_continue_outside_loop (statement : place) (* src/bms/analyze.cpp:463-469 *)
| st_empty_return (statement type : place) (* src/bms/analyze.cpp:479-484 *)
| st_return_incompatible (statement type : place) (* src/bms/analyze.cpp:497-500 *)
| st_assigning_parameter (assignment : place) (target : declared) (* src/bms/analyze.cpp:517-520 *)
| st_assigning_function (assignment function : place) (* src/bms/analyze.cpp:524-527 *)
| st_assigning_const (assignment constant : place) (* src/bms/analyze.cpp:531-534 *)
| st_assignment_incompatible (assignment : place) (expression : any_node) (* src/bms/analyze.cpp:547-550 *)
| st_conversion_incompatible (conversion type : place) (* src/bms/analyze.cpp:600-603 *)
| st_if_expression_condition (expression : place) (condition : any_node) (* src/bms/analyze.cpp:624-627 *)
| st_if_expression_types (e : type_check_error) (expression : place) (* src/bms/analyze.cpp:654 *)
| st_non_bool_logical (expression : place) (operand : any_node) (* src/bms/analyze.cpp:693-696 *)
| st_binary_types (e : type_check_error) (expression : place) (* src/bms/analyze.cpp:715 *)
| st_binary_evaluation (e : eval_error) (expression : place) (* src/bms/analyze.cpp:721 *)
| st_prefix_types (e : type_check_error) (expression : place) (* src/bms/analyze.cpp:743 *)
| st_prefix_evaluation (e : eval_error) (expression : place) (* src/bms/analyze.cpp:748 *)
| st_builtin_types (e : type_check_error) (call : place) (b : builtin) (* src/bms/analyze.cpp:780-783 *)
| st_builtin_evaluation (e : eval_error) (call : place) (b : builtin) (* src/bms/analyze.cpp:787-790 *)
| st_call_non_function (call : place) (called : any_node) (* src/bms/analyze.cpp:804-807 *)
| st_wrong_number_of_arguments (call function : place) (* src/bms/analyze.cpp:817-822 *)
| st_width_deduction (argument : any_node) (width : place) (* src/bms/analyze.cpp:844-849 *)
| st_call_to_unanalyzed (call : place) (function : place) (* src/bms/analyze.cpp:897-902 *)
| st_codegen_call (call : place) (called : declared) (* src/bms/vm/codegen.cpp:482-487 *)
| st_argument_incompatible (call parameter : place) (* src/bms/analyze.cpp:932-935 *)
| st_argument_conversion (e : eval_error) (call parameter : place) (* src/bms/analyze.cpp:942-945 *)
| st_execution (c : exec_code) (comparison : option comparison_failure) (call : place)
    (instruction : debug_info) (* src/bms/analyze.cpp:962-965 *)
| st_parameter_in_constant (id : place) (target : declared) (* src/bms/analyze.cpp:994-999 *)
| st_function_in_expression (id function : place) (* src/bms/analyze.cpp:1017-1020 *)
| st_let_in_constant (id variable : place) (* src/bms/analyze.cpp:1024-1029 *)
| st_undefined_variable (id variable : place) (* src/bms/analyze.cpp:1032-1035 *)
| st_undefined_constant (id constant : place) (* src/bms/analyze.cpp:1044-1047 *)
| st_expected_constant (id : place) (target : any_node) (* src/bms/analyze.cpp:1060-1063 *)
| st_invalid_literal (literal : place) (* src/bms/analyze.cpp:1093-1095 *)
| st_define_global_const (constant : place) (old : declared) (* src/bms/analyze_name_lookup.cpp:76-79 *)
| st_define_function (function : place) (old : declared) (* src/bms/analyze_name_lookup.cpp:89-92 *)
| st_define_parameter (parameter : place) (old : declared) (* src/bms/analyze_name_lookup.cpp:196-199 *)
| st_define_constant (constant : place) (old : declared) (* src/bms/analyze_name_lookup.cpp:236-239 *)
| st_define_variable (variable : place) (old : declared) (* src/bms/analyze_name_lookup.cpp:249-252 *)
| st_assign_undefined (assignment : place) (* src/bms/analyze_name_lookup.cpp:270-272 *)
| st_call_undefined (call : place) (* src/bms/analyze_name_lookup.cpp:283-285 *)
| st_reference_undefined (id : place) (* src/bms/analyze_name_lookup.cpp:295-297 *)
| st_argument_literal (argument : place) (* src/bms/analyze_annotations.cpp:236-238 *)
| st_annotation_missing (annotation : place) (parameter : text) (* src/bms/analyze_annotations.cpp:277-280, 328-331 *)
| st_annotation_too_many (argument annotation : place) (* src/bms/analyze_annotations.cpp:296, 315-322 *)
| st_annotation_duplicate (argument annotation : place) (* src/bms/analyze_annotations.cpp:307, 315-322 *)
| st_annotation_unknown_parameter (argument annotation : place) (* src/bms/analyze_annotations.cpp:312, 315-322 *)
| st_annotation_unknown (annotation : place) (applied : any_node) (* src/bms/analyze_annotations.cpp:424-427 *)
| st_annotation_not_applicable (annotation : place) (applied : any_node) (* src/bms/analyze_annotations.cpp:431-434 *)
| st_annotation_no_argument (annotation : place) (* src/bms/analyze_annotations.cpp:455-457 *)
| st_argument_wrong_type (argument annotation : place) (parameter : text)
    (expected actual : parameter_type) (* src/bms/analyze_annotations.cpp:475-481, 85-89 *)
| st_argument_wrong_value (argument annotation : place) (parameter : text)
    (expected actual : parameter_type) (* src/bms/analyze_annotations.cpp:490-496, 85-89 *).

(** The error that is built there (the lines given at [site]). *)
Definition site_error {E} (s : site) : outcome E analysis_error :=
  match s with
  | st_requires_not_bool c f => error_at ac_requires_clause_not_bool (node_of c) (Some (node dc_function f))
  | st_requires_not_satisfied c f =>
      error_at ac_requires_clause_not_satisfied (node_of c) (Some (node dc_function f))
  | st_width_not_integer w => error_at ac_width_not_integer (node_of w) None
  | st_width_invalid w z =>
      let* e := error_at ac_width_invalid (node_of w) None in Ok (with_value (AV TInt (Some z)) e)
  | st_const_incompatible c i => error_at ac_incompatible_types (node dc_constant c) (Some (node_of i))
  | st_const_conversion e c i => Ok (evaluation_error_at e (node dc_constant c) (Some (node_of i)))
  | st_let_incompatible v i => error_at ac_incompatible_types (node dc_variable v) (Some (node_of i))
  | st_static_assert_not_bool a x =>
      error_at ac_static_assert_expression_not_bool (node dc_static_assertion a) (Some (node_of x))
  | st_static_assertion_failed a x c =>
      let* e := error_at ac_static_assertion_failed (node dc_static_assertion a) (Some (node_of x)) in
      Ok match c with Some f => with_extras (ex_comparison f) e | None => e end
  | st_if_condition s c => error_at ac_condition_not_bool (node dc_if_statement s) (Some (node_of c))
  | st_while_condition s c => error_at ac_condition_not_bool (node dc_while_statement s) (Some (node_of c))
  | st_break_outside_loop s => error_at ac_break_outside_loop (node dc_break_statement s) None
  | st_continue_outside_loop s => error_at ac_continue_outside_loop (node dc_continue_statement s) None
  | st_empty_return s t =>
      error_at ac_empty_return_in_non_void_function (node dc_return_statement s) (Some (node dc_type t))
  | st_return_incompatible s t =>
      error_at ac_incompatible_types (node dc_return_statement s) (Some (node dc_type t))
  | st_assigning_parameter a d => error_at ac_assigning_parameter (node dc_assignment a) (Some (declared_info d))
  | st_assigning_function a f => error_at ac_assigning_function (node dc_assignment a) (Some (node dc_function f))
  | st_assigning_const a c => error_at ac_assigning_const (node dc_assignment a) (Some (node dc_constant c))
  | st_assignment_incompatible a x => error_at ac_incompatible_types (node dc_assignment a) (Some (node_of x))
  | st_conversion_incompatible c t =>
      error_at ac_incompatible_types (node dc_conversion_expression c) (Some (node dc_type t))
  | st_if_expression_condition x c =>
      error_at ac_condition_not_bool (node dc_if_expression x) (Some (node_of c))
  | st_if_expression_types e x => error_at (code_of_check e) (node dc_if_expression x) None
  | st_non_bool_logical x o => error_at ac_non_bool_logical (node dc_binary_expression x) (Some (node_of o))
  | st_binary_types e x => error_at (code_of_check e) (node dc_binary_expression x) None
  | st_binary_evaluation e x => Ok (evaluation_error_at e (node dc_binary_expression x) None)
  | st_prefix_types e x => error_at (code_of_check e) (node dc_prefix_expression x) None
  | st_prefix_evaluation e x => Ok (evaluation_error_at e (node dc_prefix_expression x) None)
  | st_builtin_types e c b =>
      error_at (code_of_check e) (node dc_function_call_expression c) (Some (declared_info (declared_builtin b)))
  | st_builtin_evaluation e c b =>
      Ok (evaluation_error_at e (node dc_function_call_expression c) (Some (declared_info (declared_builtin b))))
  | st_call_non_function c n => error_at ac_call_non_function (node dc_function_call_expression c) (Some (node_of n))
  | st_wrong_number_of_arguments c f =>
      error_at ac_wrong_number_of_arguments (node dc_function_call_expression c) (Some (node dc_function f))
  | st_width_deduction a w => error_at ac_width_deduction_from_non_uint (node_of a) (Some (node dc_id_expression w))
  | st_call_to_unanalyzed c f =>
      error_at ac_codegen_call_to_unanalyzed (node dc_function_call_expression c) (Some (node dc_function f))
  | st_codegen_call c d =>
      error_at ac_codegen_call_to_unanalyzed (node dc_function_call_expression c) (Some (declared_info d))
  | st_argument_incompatible c p =>
      error_at ac_incompatible_types (node dc_function_call_expression c) (Some (node dc_parameter p))
  | st_argument_conversion e c p =>
      Ok (evaluation_error_at e (node dc_function_call_expression c) (Some (node dc_parameter p)))
  | st_execution x f c i => Ok (execution_error_at x f (node dc_function_call_expression c) (Some i))
  | st_parameter_in_constant i d =>
      error_at ac_parameter_in_constant_expression (node dc_id_expression i) (Some (declared_info d))
  | st_function_in_expression i f =>
      error_at ac_function_in_expression (node dc_id_expression i) (Some (node dc_function f))
  | st_let_in_constant i v =>
      error_at ac_let_variable_in_constant_expression (node dc_id_expression i) (Some (node dc_variable v))
  | st_undefined_variable i v =>
      error_at ac_use_of_undefined_variable (node dc_id_expression i) (Some (node dc_variable v))
  | st_undefined_constant i c =>
      error_at ac_use_of_undefined_constant (node dc_id_expression i) (Some (node dc_constant c))
  | st_expected_constant i n =>
      error_at ac_expected_constant_expression (node dc_id_expression i) (Some (node_of n))
  | st_invalid_literal l => error_at ac_invalid_integer_literal (node dc_literal l) None
  | st_define_global_const c d =>
      error_at ac_failed_to_define_global_const (node dc_constant c) (Some (declared_info d))
  | st_define_function f d => error_at ac_failed_to_define_function (node dc_function f) (Some (declared_info d))
  | st_define_parameter p d => error_at ac_failed_to_define_parameter (node dc_parameter p) (Some (declared_info d))
  | st_define_constant c d => error_at ac_failed_to_define_variable (node dc_constant c) (Some (declared_info d))
  | st_define_variable v d => error_at ac_failed_to_define_variable (node dc_variable v) (Some (declared_info d))
  | st_assign_undefined a => error_at ac_assignment_of_undefined_variable (node dc_assignment a) None
  | st_call_undefined c => error_at ac_call_to_undefined_function (node dc_function_call_expression c) None
  | st_reference_undefined i => error_at ac_reference_to_undefined_variable (node dc_id_expression i) None
  | st_argument_literal a => error_at ac_invalid_integer_literal (node dc_annotation_argument a) None
  | st_annotation_missing a p =>
      error_at ac_annotation_missing_argument (node dc_annotation a) (Some (DebugInfo dc_annotation_parameter None p))
  | st_annotation_too_many g a =>
      error_at ac_annotation_too_many_arguments (node dc_annotation_argument g) (Some (node dc_annotation a))
  | st_annotation_duplicate g a =>
      error_at ac_annotation_argument_duplicate (node dc_annotation_argument g) (Some (node dc_annotation a))
  | st_annotation_unknown_parameter g a =>
      error_at ac_annotation_unknown_parameter (node dc_annotation_argument g) (Some (node dc_annotation a))
  | st_annotation_unknown a n => error_at ac_annotation_unknown (node dc_annotation a) (Some (node_of n))
  | st_annotation_not_applicable a n => error_at ac_annotation_not_applicable (node dc_annotation a) (Some (node_of n))
  | st_annotation_no_argument a => error_at ac_annotation_missing_argument (node dc_annotation a) None
  | st_argument_wrong_type g a p x y =>
      let* e := error_at ac_annotation_argument_wrong_type (node dc_annotation_argument g) (Some (node dc_annotation a)) in
      Ok (with_extras (ex_wrong_argument (WrongArgument p x y [])) e)
  | st_argument_wrong_value g a p x y =>
      let* e := error_at ac_annotation_argument_wrong_value (node dc_annotation_argument g) (Some (node dc_annotation a)) in
      Ok (with_extras (ex_wrong_argument (WrongArgument p x y [])) e)
  end.

(** * Printing an error *)

(** [to_prose] of an [Analysis_Error_Code] (src/common/diagnostics.cpp:107-223). *)
Definition analysis_prose (c : error_code) : text :=
  match c with
  | ac_failed_to_define_global_const => str "A name was already in use when attempting to define a global constant."
  | ac_failed_to_define_function => str "A name was already in use when attempting to define a function."
  | ac_failed_to_define_parameter => str "A name was already in use when attempting to define a function parameter."
  | ac_failed_to_define_variable => str "A name was already in use when attempting to define a variable."
  | ac_reference_to_undefined_variable => str "An expression attempted to look up a variable or parameter, but it was not defined."
  | ac_assignment_of_undefined_variable => str "An assignment attempted to assign a variable which is not defined."
  | ac_call_to_undefined_function => str "A function call to an undefined function was attempted."
  | ac_width_not_integer => str "The width of Uint must be an integer."
  | ac_width_invalid => str "The width of Uint must be in range [0, 128)."
  | ac_expected_constant_expression => str "Expected a constant expression, but was unable to perform constant folding."
  | ac_let_variable_in_constant_expression => str "Cannot use variables in a constant expression. Did you mean 'const'?"
  | ac_parameter_in_constant_expression => str "Cannot use function parameters in a constant expression."
  | ac_function_in_expression => str "Attempted to use a function in an expression as if it was a variable."
  | ac_execution_error => str "Error in the execution of the generated code for constant-evaluated functions."
  | ac_evaluation_error => str "Evaluation error in constant expressions or constant folding."
  | ac_condition_not_bool => str "Condition of an if statement or while loop must be of type 'Bool'."
  | ac_invalid_integer_literal => str "The given literal is invalid, possibly because it is too large for the compiler's internal integer representation."
  | ac_assigning_parameter => str "Cannot assign a function parameter."
  | ac_assigning_function => str "Cannot assign a function."
  | ac_assigning_const => str "Cannot assign a constant. Did you mean to use 'let'?"
  | ac_call_non_function => str "Cannot call something that is not a function."
  | ac_wrong_number_of_arguments => str "Wrong number of arguments provided to function."
  | ac_codegen_call_to_unanalyzed => str "Constant evaluation depends on a function whose definition is not yet complete."
  | ac_width_deduction_from_non_uint => str "Cannot deduce the width of Uint from a type that is not Uint."
  | ac_static_assert_expression_not_bool => str "The expression of a static assertion must be of type 'Bool'."
  | ac_static_assertion_failed => str "Static assertion failed."
  | ac_requires_clause_not_bool => str "The expression in a requires-clause must be of type 'Bool'."
  | ac_requires_clause_not_satisfied => str "Requires-clause was not satisfied."
  | ac_use_of_undefined_variable => str "Use of undefined variable."
  | ac_use_of_undefined_constant => str "Use of undefined constant."
  | ac_empty_return_in_non_void_function => str "Cannot return nothing in a non-void function."
  | ac_invalid_operator => str "Invalid operator is used."
  | ac_void_operation => str "Cannot perform operations for operands of type 'Void'."
  | ac_bool_arithmetic => str "Cannot use arithmetic operators for operands of type 'Bool'."
  | ac_bool_bitwise => str "Cannot use bitwise operators for operands of type 'Bool'."
  | ac_bool_relational_comparison => str "Cannot use relational comparisons between operands of type 'Bool'. Only logical comparisons are allowed."
  | ac_int_bitwise => str "Cannot use bitwise operators for operands of type 'Int'."
  | ac_int_logical => str "Cannot use logical operators for operands of type 'Int'."
  | ac_uint_logical => str "Cannot us logical operators for operands of type 'Uint'."
  | ac_non_bool_logical => str "Logical operators can only be applied to 'Bool'."
  | ac_incompatible_types => str "Incompatible types for operation or conversion."
  | ac_incompatible_widths => str "Incompatible Uint widths for operation or conversion."
  | ac_wrong_argument_type => str "Wrong argument types for function call."
  | ac_break_outside_loop => str "This break statement is not inside of a loop."
  | ac_continue_outside_loop => str "This continue statement is not inside of a loop."
  | ac_annotation_unknown => str "Unknown annotation."
  | ac_annotation_not_applicable => str "Annotation cannot be applied to the following construct."
  | ac_annotation_too_many_arguments => str "Too many arguments for provided for this annotation."
  | ac_annotation_unknown_parameter => str "This argument does not match any annotation parameter."
  | ac_annotation_argument_duplicate => str "This argument was provided twice for the same parameter."
  | ac_annotation_argument_wrong_type => str "The argument type is invalid for the parameter."
  | ac_annotation_argument_wrong_value => str "This argument value is not allowed."
  | ac_annotation_missing_argument => str "The annotation is missing a required argument."
  end.

(** [to_prose] of an [Evaluation_Error_Code] (src/common/diagnostics.cpp:225-241). *)
Definition evaluation_prose (e : eval_error) : text :=
  match e with
  | type_error => str "The evaluation violates the type system."
  | division_by_zero => str "Division by zero."
  | shift_too_much => str "Bit-shift was not less than the operand size."
  | assertion_fail => str "Assertion failed."
  | int_to_uint_range_error => str "Conversion from Int to Uint would lose information."
  end.

(** [to_prose] of an [Execution_Error_Code] (src/common/diagnostics.cpp:243-267). *)
Definition execution_prose (e : exec_code) : text :=
  match e with
  | x_load_uninitialized => str "Load from uninitialized variable."
  | x_pop => str "Pop from empty stack."
  | x_pop_call => str "Return from outside a function."
  | x_evaluation _ => str "Error in evaluation of operator."
  | x_jump_out_of_program => str "Jump to address which is outside the program."
  | x_jump_if_not_bool => str "Condition of Jump_If instruction is not of type 'Bool'."
  | x_symbolic_jump => str "Execution of a symbolic jump."
  | x_call_out_of_program => str "Call of a function address which is outside the program."
  | x_infinite_loop => str "Infinite loop in VM execution."
  end.

(** [cause_to_prose] (src/common/diagnostics.cpp:327-384). *)
Definition cause_prose (c : error_code) : text :=
  match c with
  | ac_failed_to_define_global_const | ac_failed_to_define_function | ac_failed_to_define_parameter | ac_failed_to_define_variable => str "An entity with the same name is already defined here:"
  | ac_width_not_integer => str "The following expression must be of type 'Int':"
  | ac_width_invalid => str "The following expression results in invalid width:"
  | ac_let_variable_in_constant_expression => str "The referenced variable is declared 'let', here:"
  | ac_parameter_in_constant_expression => str "The referenced entity is defined as a function parameter here:"
  | ac_function_in_expression => str "The referenced entity is defined as a function here:"
  | ac_condition_not_bool => str "The following expression must be of type 'Bool':"
  | ac_assigning_parameter => str "The assigned parameter is defined here:"
  | ac_assigning_function => str "The assigned function is defined here:"
  | ac_assigning_const => str "The assigned object is declared 'const' here:"
  | ac_call_non_function => str "The called entity is declared here:"
  | ac_wrong_number_of_arguments => str "The arguments must match the following parameter list:"
  | ac_codegen_call_to_unanalyzed => str "The following function was called:"
  | ac_width_deduction_from_non_uint => str "The following expression is not of type 'Uint':"
  | ac_static_assert_expression_not_bool => str "The following expression must be of type 'Bool':"
  | ac_static_assertion_failed => str "The following expression must evaluate to 'true', but evaluated to 'false':"
  | ac_requires_clause_not_bool | ac_requires_clause_not_satisfied => str "Requires-clause is attached to this function:"
  | ac_use_of_undefined_variable => str "The following variable is undefined before its first use:"
  | ac_use_of_undefined_constant => str "The following constant is undefined before its first use:"
  | ac_empty_return_in_non_void_function => str "The function's return type is not declared Void:"
  | ac_annotation_unknown => str "When applying annotation here:"
  | ac_annotation_not_applicable => str "Annotation cannot be applied here:"
  | ac_annotation_too_many_arguments | ac_annotation_unknown_parameter | ac_annotation_argument_duplicate | ac_annotation_argument_wrong_type | ac_annotation_argument_wrong_value => str "In this annotation:"
  | _ => str "Caused by:"
  end.

(** [diagnosis_name_of] an [Annotation_Parameter_Type] (src/common/diagnostics.cpp:410-419). *)
Definition parameter_type_prose (t : parameter_type) : text :=
  match t with
  | pt_boolean => str "boolean (true/false)"
  | pt_integer => str "an integer (1, 0x1, ...)"
  | pt_string => str "a string (""..."")"
  end.

(** [diagnosis_name_of] a [Construct] (src/common/diagnostics.cpp:421-452). *)
Definition construct_prose (c : construct) : text :=
  match c with
  | dc_program => str "program"
  | dc_function => str "function"
  | dc_parameter => str "function parameter"
  | dc_type => str "type"
  | dc_constant => str "constant"
  | dc_variable => str "variable"
  | dc_static_assertion => str "static assertion"
  | dc_if_statement => str "if-statement"
  | dc_while_statement => str "while-statement"
  | dc_break_statement => str "break-statement"
  | dc_continue_statement => str "continue-statement"
  | dc_return_statement => str "return-statement"
  | dc_assignment => str "assignment"
  | dc_block_statement => str "block statement"
  | dc_conversion_expression => str "conversion expression"
  | dc_if_expression => str "if expression"
  | dc_binary_expression => str "binary expression"
  | dc_prefix_expression => str "prefix unary expression"
  | dc_function_call_expression => str "function call expression"
  | dc_id_expression => str "id-expression"
  | dc_literal => str "literal"
  | dc_builtin_function => str "builtin function"
  | dc_annotation => str "annotation"
  | dc_annotation_argument => str "annotation argument"
  | dc_annotation_parameter => str "annotation parameter"
  end.

(** [value_to_string] (src/common/diagnostics.cpp:46-55). *)
Definition value_to_string (v : cvalue) : text :=
  match cv_type v with
  | TVoid => str "Void"
  | TBool => if cv_int v =? 0 then str "false" else str "true"
  | TInt => to_string_int (cv_int v)
  | TUint _ => to_string_uint (to_big_uint (cv_int v))
  end.

(** [Error_Line] with [Printable_Comparison] (src/common/diagnostics.cpp:57-70). *)
Inductive line_kind : Type := lk_error | lk_note.
Record error_line : Type := ErrorLine {
  el_kind : line_kind;
  el_pos : option position;
  el_message : text;
  el_comparison : option (text * text * text);
  el_omit : bool
}.

(** [is_incompatible_return_type_error] (src/common/diagnostics.cpp:404-408). *)
Definition is_return_type_error (e : analysis_error) : bool :=
  match code_of e, di_construct (ae_fail e) with
  | ac_incompatible_types, dc_return_statement => true
  | _, _ => false
  end.

(** [cause_pos] (src/bms/analysis_error.hpp:254-257). *)
Definition cause_pos (e : analysis_error) : option position :=
  match ae_cause e with Some c => di_pos c | None => None end.

(** The line for an invalid width (src/common/diagnostics.cpp:474-497). *)
Definition width_line {E} (e : analysis_error) : outcome E error_line :=
  match ae_value e with
  | None => Abort
  | Some v =>
      let* width := as_int v in
      let prefix := str "The width evaluated to " ++ to_string_int width in
      let line m := Ok (ErrorLine lk_error (di_pos (ae_fail e)) m None false) in
      if width <? 0 then line (prefix ++ str ", but widths must be positive.")
      else if width =? 0 then line (prefix ++ str ", but widths shall not be zero.")
      else if uint_max_width <? width
      then line (prefix ++ str ", but the maximum allowed is " ++ std_to_string uint_max_width ++ str ".")
      else Abort
  end.

(** The note with the code of the execution (src/common/diagnostics.cpp:503-506).  A code of the evaluation
    that was not written is read later, in [is_internal] (86-87). *)
Definition execution_note {E} (e : analysis_error) : outcome E (list error_line) :=
  match ae_code e with
  | d_execution x => Ok [ErrorLine lk_note (di_pos (ae_fail e)) (execution_prose x) None false]
  | d_execution_lost | d_plain ac_execution_error | d_plain ac_evaluation_error => UB
  | _ => Ok []
  end.

(** The note for a wrong argument (src/common/diagnostics.cpp:508-527). *)
Definition argument_note {E} (e : analysis_error) : outcome E (list error_line) :=
  match ae_extras e with
  | ex_wrong_argument w =>
      let* must := match code_of e with
                   | ac_annotation_argument_wrong_type => Ok (parameter_type_prose (wa_expected w))
                   | ac_annotation_argument_wrong_value => Ok (wa_constraints w)
                   | _ => Abort
                   end in
      Ok [ErrorLine lk_note (di_pos (ae_fail e))
            (str "Parameter '" ++ wa_name w ++ str "' must be " ++ must) None true]
  | _ => Ok []
  end.

(** The note with a comparison or with the cause (src/common/diagnostics.cpp:529-550). *)
Definition cause_note (e : analysis_error) : list error_line :=
  match ae_extras e, ae_cause e with
  | ex_comparison c, _ =>
      [ErrorLine lk_note (cause_pos e) (str "Comparison evaluated to ")
         (Some (value_to_string (cf_left c), value_to_string (cf_right c), expression_type_code_name (cf_op c)))
         false]
  | _, Some c =>
      let message := match ae_code e with
                     | d_evaluation x => str "Caused by: " ++ evaluation_prose x
                     | _ => cause_prose (code_of e)
                     end in
      let where_ := match di_pos c with
                    | Some _ => []
                    | None => str " (" ++ construct_prose (di_construct c)
                        ++ match di_name c with [] => [] | name => str " '" ++ name ++ str "'" end ++ str ")"
                    end in
      [ErrorLine lk_note (di_pos c) (message ++ where_) None false]
  | _, None => []
  end.

(** [is_internal] (src/common/diagnostics.cpp:83-88). *)
Definition is_internal (e : analysis_error) : bool :=
  match ae_code e with
  | d_execution _ | d_execution_lost | d_evaluation type_error => true
  | _ => false
  end.

(** [make_error_printable] (src/common/diagnostics.cpp:454-554): the lines, and whether the error is an
    internal one. *)
Definition make_error_printable {E} (e : analysis_error) : outcome E (list error_line * bool) :=
  if is_return_type_error e then
    match ae_cause e, ae_type e with
    | Some _, Some t =>
        let is_void := ctype_eqb t TVoid in
        Ok ([ErrorLine lk_error (di_pos (ae_fail e))
               (if is_void then str "Cannot have non-empty return statement in a function returning Void."
                else str "Invalid conversion between return statement and return type.") None false;
             ErrorLine lk_note (cause_pos e)
               (if is_void then str "Did you mean to 'return;' or declare the return type 'Void'?"
                else str "Return type is declared here:") None false], false)
    | _, _ => Abort
    end
  else match code_of e with
  | ac_width_invalid => let* l := width_line e in Ok ([l], false)
  | _ =>
      let* x := execution_note e in
      let* a := argument_note e in
      Ok (ErrorLine lk_error (di_pos (ae_fail e)) (analysis_prose (code_of e)) None false
          :: x ++ a ++ cause_note e, is_internal e)
  end.

(** [print_source_position] (src/common/diagnostics.cpp:556-570). *)
Definition print_source_position (file : text) (p : option position) (colors : bool) : text :=
  match p with
  | None => color colors ansi_black ++ str "(internal)" ++ color colors ansi_reset
  | Some q => print_file_position file q colors
  end.

(** One line of [print_printable_error] (src/common/diagnostics.cpp:574-593). *)
Definition print_error_line {E} (file source : text) (colors : bool) (l : error_line) : outcome E text :=
  let head :=
    print_source_position file (el_pos l) colors ++ str ": "
    ++ match el_kind l with lk_error => error_prefix | lk_note => note_prefix end
    ++ el_message l
    ++ match el_comparison l with
       | Some (x, y, op) =>
           color colors ansi_h_magenta ++ x ++ color colors ansi_reset ++ str " " ++ op ++ str " "
           ++ color colors ansi_h_magenta ++ y ++ color colors ansi_reset
       | None => []
       end
    ++ [ch_newline] in
  match el_pos l, el_omit l with
  | Some p, false => let* affected := print_affected_line source p colors in Ok (head ++ affected)
  | _, _ => Ok head
  end.

(** All lines (src/common/diagnostics.cpp:574-593). *)
Fixpoint print_error_lines {E} (file source : text) (colors : bool) (l : list error_line) : outcome E text :=
  match l with
  | [] => Ok []
  | x :: l' =>
      let* a := print_error_line file source colors x in
      let* b := print_error_lines file source colors l' in
      Ok (a ++ b)
  end.

(** [print_analysis_error] (src/common/diagnostics.cpp:739-746) with [print_printable_error] (572-600). *)
Definition print_analysis_error {E} (file source : text) (e : analysis_error) (colors : bool)
  : outcome E text :=
  let* p := make_error_printable e in
  let* lines := print_error_lines file source colors (fst p) in
  Ok (lines ++ if snd p then internal_error_notice colors else []).
