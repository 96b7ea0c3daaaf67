(** The tests of the project about programs (src/test/main.cpp), run in the model.  These are examples, not proofs: that
    the model gives every answer that the project expects is a reason to believe that it is one of this project.

    The lines that are expected for errors of the analysis are left out, as places are not part of the modelled analysis. *)
From Coq Require Import ZArith Ascii String List Bool.
From Verif Require Import Prelude Text Types Tables Tokenizer Ops AbsOps Ast Parse NameLookup FrontEnd ErrorPrint ErrorPrintProps AnalyzeGeneric Tool Testing.
Import ListNotations.
Open Scope string_scope.
Open Scope list_scope.

(** * The files *)

Definition f_analysis_error_assigning_const : text := (* test/analysis_error/assigning_const.bms:1-4 *)
  str "function awoo() -> Void {
    const c = 0;
    c = 1;
}
".
Definition f_analysis_error_assigning_function : text := (* test/analysis_error/assigning_function.bms:1-3 *)
  str "function awoo(x: Int) -> Void {
    awoo = x;
}
".
Definition f_analysis_error_assigning_parameter : text := (* test/analysis_error/assigning_parameter.bms:1-3 *)
  str "function awoo(x: Int) -> Void {
    x = 0;
}
".
Definition f_analysis_error_assignment_of_undefined_variable : text := (* test/analysis_error/assignment_of_undefined_variable.bms:1-4 *)
  str "function awoo() -> Void
{
    x = 0;
}
".
Definition f_analysis_error_bool_arithmetic : text := (* test/analysis_error/bool_arithmetic.bms:1-1 *)
  str "const x = +true;
".
Definition f_analysis_error_bool_bitwise : text := (* test/analysis_error/bool_bitwise.bms:1-1 *)
  str "const x = ~false;
".
Definition f_analysis_error_bool_relational_comparison : text := (* test/analysis_error/bool_relational_comparison.bms:1-1 *)
  str "const x = false < true;
".
Definition f_analysis_error_break_outside_loop : text := (* test/analysis_error/break_outside_loop.bms:1-3 *)
  str "function awoo() -> Void {
    break;
}
".
Definition f_analysis_error_call_non_function : text := (* test/analysis_error/call_non_function.bms:1-4 *)
  str "function awoo() -> Void {
    const c = 0;
    c();
}
".
Definition f_analysis_error_call_to_undefined_function : text := (* test/analysis_error/call_to_undefined_function.bms:1-4 *)
  str "function awoo() -> Void
{
    chan();
}
".
Definition f_analysis_error_codegen_call_to_unanalyzed : text := (* test/analysis_error/codegen_call_to_unanalyzed.bms:1-4 *)
  str "function awoo() -> Int {
    const a = awoo();
    return 0;
}
".
Definition f_analysis_error_continue_outside_loop : text := (* test/analysis_error/continue_outside_loop.bms:1-3 *)
  str "function awoo() -> Void {
    continue;
}
".
Definition f_analysis_error_empty_return_in_non_void_function : text := (* test/analysis_error/empty_return_in_non_void_function.bms:1-3 *)
  str "function awoo() -> Int {
    return;
}
".
Definition f_analysis_error_failed_to_define_function : text := (* test/analysis_error/failed_to_define_function.bms:1-2 *)
  str "function awoo() -> Void { }
function awoo() -> Void { }
".
Definition f_analysis_error_failed_to_define_global_const : text := (* test/analysis_error/failed_to_define_global_const.bms:1-2 *)
  str "const x = 0;
const x = 0;
".
Definition f_analysis_error_failed_to_define_parameter : text := (* test/analysis_error/failed_to_define_parameter.bms:1-3 *)
  str "function awoo(x: Int,
              x: Int) -> Void
{ }
".
Definition f_analysis_error_failed_to_define_variable : text := (* test/analysis_error/failed_to_define_variable.bms:1-5 *)
  str "function awoo() -> Void
{
    let x = 0;
    let x = 1;
}
".
Definition f_analysis_error_function_in_expression : text := (* test/analysis_error/function_in_expression.bms:1-5 *)
  str "function chan() -> Void { }

function awoo() -> Void {
    let x = chan;
}
".
Definition f_analysis_error_incompatible_widths : text := (* test/analysis_error/incompatible_widths.bms:1-3 *)
  str "const u16: Uint(16) = 0;
const u32: Uint(32) = 0;
const sum = u16 + u32;
".
Definition f_analysis_error_int_bitwise : text := (* test/analysis_error/int_bitwise.bms:1-1 *)
  str "const x = 1 & 1;
".
Definition f_analysis_error_invalid_integer_literal : text := (* test/analysis_error/invalid_integer_literal.bms:1-1 *)
  str "const x = 21584327519287549275942845792317403284703924803218317209537210;
".
Definition f_analysis_error_let_variable_in_constant_expression : text := (* test/analysis_error/let_variable_in_constant_expression.bms:1-5 *)
  str "function awoo() -> Void
{
    let x = 0;
    let y: Uint(x);
}
".
Definition f_analysis_error_non_bool_logical : text := (* test/analysis_error/non_bool_logical.bms:1-1 *)
  str "const x = 0 && 0;
".
Definition f_analysis_error_parameter_in_constant_expression : text := (* test/analysis_error/parameter_in_constant_expression.bms:1-4 *)
  str "function awoo(x: Int) -> Void
{
    let y: Uint(x);
}
".
Definition f_analysis_error_reference_to_undefined_variable : text := (* test/analysis_error/reference_to_undefined_variable.bms:1-4 *)
  str "function awoo() -> Void
{
    let x = y;
}
".
Definition f_analysis_error_requires_clause_not_bool : text := (* test/analysis_error/requires_clause_not_bool.bms:1-3 *)
  str "function awoo() -> Void
    requires 1
{ }
".
Definition f_analysis_error_requires_clause_not_satisfied : text := (* test/analysis_error/requires_clause_not_satisfied.bms:1-3 *)
  str "function awoo() -> Void
    requires false
{ }
".
Definition f_analysis_error_static_assert_expression_not_bool : text := (* test/analysis_error/static_assert_expression_not_bool.bms:1-1 *)
  str "static_assert(1);
".
Definition f_analysis_error_use_of_undefined_variable : text := (* test/analysis_error/use_of_undefined_variable.bms:1-4 *)
  str "function awoo() -> Int {
    let x
      = x;
}
".
Definition f_analysis_error_void_operation : text := (* test/analysis_error/void_operation.bms:1-2 *)
  str "function awoo() -> Void { }
const x = 0 + awoo();
".
Definition f_analysis_error_width_deduction_from_non_uint : text := (* test/analysis_error/width_deduction_from_non_uint.bms:1-2 *)
  str "function chan(x: Uint(N)) -> Void { }
const y = chan(true);
".
Definition f_analysis_error_width_not_integer : text := (* test/analysis_error/width_not_integer.bms:1-1 *)
  str "const x: Uint(true) = 0;
".
Definition f_analysis_error_wrong_number_of_arguments : text := (* test/analysis_error/wrong_number_of_arguments.bms:1-3 *)
  str "function awoo() -> Void {
    let x = awoo(123);
}
".
Definition f_analysis_error_annotation_argument_duplicate : text := (* test/analysis_error/annotation/argument_duplicate.bms:1-2 *)
  str "@java_equivalent(method = ""a"", method = ""b"")
function awoo() -> Void { }
".
Definition f_analysis_error_annotation_argument_wrong_type : text := (* test/analysis_error/annotation/argument_wrong_type.bms:1-2 *)
  str "@java_equivalent(method = 100)
function awoo() -> Void { }
".
Definition f_analysis_error_annotation_argument_wrong_value : text := (* test/analysis_error/annotation/argument_wrong_value.bms:1-4 *)
  str "function awoo() -> Void {
    @unroll(limit = 1000000000)
    while true { }
}
".
Definition f_analysis_error_annotation_missing_argument : text := (* test/analysis_error/annotation/missing_argument.bms:1-2 *)
  str "@java_equivalent
function awoo() -> Void { }
".
Definition f_analysis_error_annotation_not_applicable : text := (* test/analysis_error/annotation/not_applicable.bms:1-2 *)
  str "@immutable
function awoo() -> Void { }
".
Definition f_analysis_error_annotation_too_many_arguments : text := (* test/analysis_error/annotation/too_many_arguments.bms:1-4 *)
  str "function awoo() -> Void {
    @immutable(1, 2, 3)
    let x = 0;
}
".
Definition f_analysis_error_annotation_unknown : text := (* test/analysis_error/annotation/unknown.bms:1-2 *)
  str "@awoo
function awoo() -> Void { }
".
Definition f_analysis_error_annotation_unknown_parameter : text := (* test/analysis_error/annotation/unknown_parameter.bms:1-4 *)
  str "function awoo() -> Void {
    @immutable(x = 100)
    let x = 0;
}
".
Definition f_analysis_error_condition_not_bool_if_expression : text := (* test/analysis_error/condition_not_bool/if_expression.bms:1-1 *)
  str "const x = 1 if 1 else 0;
".
Definition f_analysis_error_condition_not_bool_if_statement : text := (* test/analysis_error/condition_not_bool/if_statement.bms:1-3 *)
  str "function awoo() -> Void {
    if 1 { }
}
".
Definition f_analysis_error_incompatible_types_argument : text := (* test/analysis_error/incompatible_types/argument.bms:1-5 *)
  str "function awoo(x: Int) -> Int {
    return x;
}

const y = awoo(true);
".
Definition f_analysis_error_incompatible_types_as : text := (* test/analysis_error/incompatible_types/as.bms:1-1 *)
  str "const x = true as Int;
".
Definition f_analysis_error_incompatible_types_binary_expression : text := (* test/analysis_error/incompatible_types/binary_expression.bms:1-1 *)
  str "const x = true && 1;
".
Definition f_analysis_error_incompatible_types_return : text := (* test/analysis_error/incompatible_types/return.bms:1-3 *)
  str "function awoo() -> Int {
    return true;
}
".
Definition f_analysis_error_static_assertion_failed_constant : text := (* test/analysis_error/static_assertion_failed/constant.bms:1-2 *)
  str "const no = false;
static_assert(no);
".
Definition f_analysis_error_static_assertion_failed_function : text := (* test/analysis_error/static_assertion_failed/function.bms:1-4 *)
  str "function no() -> Bool {
    return false;
}
static_assert(no());
".
Definition f_analysis_error_static_assertion_failed_literal : text := (* test/analysis_error/static_assertion_failed/literal.bms:1-1 *)
  str "static_assert(false);
".
Definition f_analysis_error_use_of_undefined_constant_direct : text := (* test/analysis_error/use_of_undefined_constant/direct.bms:1-2 *)
  str "const x
  = x;
".
Definition f_analysis_error_use_of_undefined_constant_indirect : text := (* test/analysis_error/use_of_undefined_constant/indirect.bms:1-2 *)
  str "const x = y;
const y = x;
".
Definition f_analysis_error_width_invalid_negative : text := (* test/analysis_error/width_invalid/negative.bms:1-1 *)
  str "const x: Uint(-1) = 0;
".
Definition f_analysis_error_width_invalid_too_large : text := (* test/analysis_error/width_invalid/too_large.bms:1-1 *)
  str "const x: Uint(1000) = 0;
".
Definition f_analysis_error_width_invalid_zero : text := (* test/analysis_error/width_invalid/zero.bms:1-1 *)
  str "const x: Uint(0) = 0;
".
Definition f_parse_error_global_let : text := (* test/parse_error/global_let.bms:1-1 *)
  str "let x = 0;
".
Definition f_parse_error_let_let : text := (* test/parse_error/let_let.bms:1-3 *)
  str "function awoo() -> Int {
    let let x = 0;
}
".
Definition f_parse_error_let_no_type_no_init : text := (* test/parse_error/let_no_type_no_init.bms:1-3 *)
  str "function awoo() -> Void {
    let x;
}
".
Definition f_parse_error_nameless_function : text := (* test/parse_error/nameless_function.bms:1-2 *)
  str "function() -> Int
{ }
".
Definition f_parse_error_unbalanced_parentheses : text := (* test/parse_error/unbalanced_parentheses.bms:1-1 *)
  str "const zero: Uint((32) = 0
".
Definition f_syntax_annotated_everything : text := (* test/syntax/annotated_everything.bms:1-15 *)
  str "@a
const i = 0;

@b
function awoo() -> Void {
    @c
    let j = 0;
    @d
    if true { }
    @e
    while true { }
    @f
    j = 1;
    awoo() @g;
}
".
Definition f_syntax_annotated_function_calls : text := (* test/syntax/annotated_function_calls.bms:1-6 *)
  str "function awoo() -> Int {
    awoo();
    awoo() @inline;
    awoo() @a @b @c @d@e @f;
    return 0;
}
".
Definition f_syntax_annotated_loop : text := (* test/syntax/annotated_loop.bms:1-8 *)
  str "function awoo() -> Void {
    @loop_variable
    let i = 0;
    while i < 5 {
        @loop_increment
        i = i + 1;
    }
}
".
Definition f_syntax_annotation_with_arguments : text := (* test/syntax/annotation_with_arguments.bms:1-11 *)
  str "@annotation(""string"", 123, true, false, 0x00)
const x = 0;

@annotation(a=""string"", b=123, c=true, d=false, e=0x00)
const y = 0;

@annotation(a = ""string"", b = 123, c = true, d = false, e = 0x00)
const z = 0;

@annotation(a = ""string"", 123, c = true, false, e = 0x00)
const u = 0;
".
Definition f_syntax_empty_function_void : text := (* test/syntax/empty_function_void.bms:1-1 *)
  str "function empty() -> Void { }
".
Definition f_syntax_function_return_zero : text := (* test/syntax/function_return_zero.bms:1-4 *)
  str "function empty() -> Int
{
    return 0;
}
".
Definition f_syntax_global_const : text := (* test/syntax/global_const.bms:1-2 *)
  str "const x = 0;
const y: Int = 0;
".
Definition f_tokenize_error_illegal_character : text := (* test/tokenize_error/illegal_character.bms:1-1 *)
  str "$
".
Definition f_tokenize_error_integer_suffix : text := (* test/tokenize_error/integer_suffix.bms:1-1 *)
  str "123u
".
Definition f_tokenize_error_no_digits_following_integer_prefix : text := (* test/tokenize_error/no_digits_following_integer_prefix.bms:1-1 *)
  str "0x
".
Definition f_tokenize_error_unterminated_comment : text := (* test/tokenize_error/unterminated_comment.bms:1-1 *)
  str "/* unterminated comment
".
Definition f_valid_bms_assert : text := (* test/valid_bms/assert.bms:1-7 *)
  str "function test(x: Int) -> Int
{
    assert(x == 0);
    return 0;
}

static_assert(test(0) == 0);
".
Definition f_valid_bms_consteval_return_conversion : text := (* test/valid_bms/consteval_return_conversion.bms:1-11 *)
  str "function zero() -> Uint(32) {
    return 0;
}

const x = zero();

function identity(y: Int) -> Uint(32) {
    return y;
}

const z = identity(0);
".
Definition f_valid_bms_deduction : text := (* test/valid_bms/deduction.bms:1-6 *)
  str "function sqr(x: Uint(N)) -> Uint(N) {
    return x * x;
}

const five: Uint(32) = 5;
static_assert(sqr(five) == 25);".
Definition f_valid_bms_dependent_static_assert : text := (* test/valid_bms/dependent_static_assert.bms:1-9 *)
  str "// Verify that static_assert is not checked prior to instantiation
// of a bit-generic functions.
function awoo(x: Uint(N)) -> Uint(N) {
    static_assert(N == 32);
    return x;
}

const y: Uint(32) = 0;
const z = awoo(y);
".
Definition f_valid_bms_identity : text := (* test/valid_bms/identity.bms:1-5 *)
  str "function identity(x: Uint(N)) -> Uint(N)
{
    // basic test program
    return x;
}".
Definition f_valid_bms_if_expression : text := (* test/valid_bms/if_expression.bms:1-146 *)
  str "function bool_to_int(x: Bool) -> Int {
    return 1 if x else 0;
}

static_assert(bool_to_int(false) == 0);
static_assert(bool_to_int(true) == 1);

function log10(x: Int) -> Int {
    return 0 if x < 10
      else 1 if x < 100
      else 2 if x < 1000
      else 3 if x < 10000
      else 4 if x < 100000
      else 5;
}

static_assert(log10(0) == 0);
static_assert(log10(1) == 0);
static_assert(log10(2) == 0);
static_assert(log10(3) == 0);
static_assert(log10(4) == 0);
static_assert(log10(5) == 0);
static_assert(log10(6) == 0);
static_assert(log10(7) == 0);
static_assert(log10(8) == 0);
static_assert(log10(9) == 0);

static_assert(log10(10) == 1);
static_assert(log10(20) == 1);
static_assert(log10(50) == 1);
static_assert(log10(99) == 1);

static_assert(log10(100) == 2);
static_assert(log10(200) == 2);
static_assert(log10(999) == 2);

static_assert(log10(1000) == 3);

static_assert(log10(10000) == 4);
static_assert(log10(100000) == 5);

function log10_2(x: Int) -> Int {
    if (x < 10) { return 0; }
    else if (x < 100) { return 1; }
    else if (x < 1000) { return 2; }
    else if (x < 10000) { return 3; }
    else if (x < 100000) { return 4; }
    else { return 5; }
}

static_assert(log10_2(0) == 0);
static_assert(log10_2(1) == 0);
static_assert(log10_2(2) == 0);
static_assert(log10_2(3) == 0);
static_assert(log10_2(4) == 0);
static_assert(log10_2(5) == 0);
static_assert(log10_2(6) == 0);
static_assert(log10_2(7) == 0);
static_assert(log10_2(8) == 0);
static_assert(log10_2(9) == 0);

static_assert(log10_2(10) == 1);
static_assert(log10_2(20) == 1);
static_assert(log10_2(50) == 1);
static_assert(log10_2(99) == 1);

static_assert(log10_2(100) == 2);
static_assert(log10_2(200) == 2);
static_assert(log10_2(999) == 2);

static_assert(log10_2(1000) == 3);

static_assert(log10_2(10000) == 4);
static_assert(log10_2(100000) == 5);


function log10_3(x: Int) -> Int {
    if (x < 10) { return 0; }
    if (x < 100) { return 1; }
    if (x < 1000) { return 2; }
    if (x < 10000) { return 3; }
    if (x < 100000) { return 4; }
    return 5;
}

static_assert(log10_3(0) == 0);
static_assert(log10_3(1) == 0);
static_assert(log10_3(2) == 0);
static_assert(log10_3(3) == 0);
static_assert(log10_3(4) == 0);
static_assert(log10_3(5) == 0);
static_assert(log10_3(6) == 0);
static_assert(log10_3(7) == 0);
static_assert(log10_3(8) == 0);
static_assert(log10_3(9) == 0);

static_assert(log10_3(10) == 1);
static_assert(log10_3(20) == 1);
static_assert(log10_3(50) == 1);
static_assert(log10_3(99) == 1);

static_assert(log10_3(100) == 2);
static_assert(log10_3(200) == 2);
static_assert(log10_3(999) == 2);

static_assert(log10_3(1000) == 3);

static_assert(log10_3(10000) == 4);
static_assert(log10_3(100000) == 5);



function log10_4(x: Int) -> Int {
    let result = 0;
    let t = x / 10;
    while t != 0 {
        result = result + 1;
        t = t / 10;
    }
    return result;
}

static_assert(log10_4(0) == 0);
static_assert(log10_4(1) == 0);
static_assert(log10_4(2) == 0);
static_assert(log10_4(3) == 0);
static_assert(log10_4(4) == 0);
static_assert(log10_4(5) == 0);
static_assert(log10_4(6) == 0);
static_assert(log10_4(7) == 0);
static_assert(log10_4(8) == 0);
static_assert(log10_4(9) == 0);

static_assert(log10_4(10) == 1);
static_assert(log10_4(20) == 1);
static_assert(log10_4(50) == 1);
static_assert(log10_4(99) == 1);

static_assert(log10_4(100) == 2);
static_assert(log10_4(200) == 2);
static_assert(log10_4(999) == 2);

static_assert(log10_4(1000) == 3);

static_assert(log10_4(10000) == 4);
static_assert(log10_4(100000) == 5);
".
Definition f_valid_bms_loop : text := (* test/valid_bms/loop.bms:1-9 *)
  str "function test(n: Int) -> Int {
    let i = 0;
    while i < n { 
        i = i + 1;
    }
    return i;
}

static_assert(test(10) == 10);
".
Definition f_valid_bms_return_variable : text := (* test/valid_bms/return_variable.bms:1-6 *)
  str "function test() -> Int {
    let i = 0;
    return i;
}

static_assert(test() == 0);
".
Definition f_valid_bms_static_assert : text := (* test/valid_bms/static_assert.bms:1-10 *)
  str "static_assert(true);
static_assert(1 == 1);

const one = 1;
static_assert(one == 1);

function get_one() -> Int {
    return 1;
}
static_assert(get_one() == 1);".
Definition f_valid_bms_void : text := (* test/valid_bms/void.bms:1-8 *)
  str "function nothing() -> Void {
    return;
}

function something() -> Int {
    return 0;
}

".

(** What is in the directory of the tests (test). *)
Definition files : list (string * text) :=
  [("test/analysis_error/assigning_const.bms", f_analysis_error_assigning_const);
   ("test/analysis_error/assigning_function.bms", f_analysis_error_assigning_function);
   ("test/analysis_error/assigning_parameter.bms", f_analysis_error_assigning_parameter);
   ("test/analysis_error/assignment_of_undefined_variable.bms", f_analysis_error_assignment_of_undefined_variable);
   ("test/analysis_error/bool_arithmetic.bms", f_analysis_error_bool_arithmetic);
   ("test/analysis_error/bool_bitwise.bms", f_analysis_error_bool_bitwise);
   ("test/analysis_error/bool_relational_comparison.bms", f_analysis_error_bool_relational_comparison);
   ("test/analysis_error/break_outside_loop.bms", f_analysis_error_break_outside_loop);
   ("test/analysis_error/call_non_function.bms", f_analysis_error_call_non_function);
   ("test/analysis_error/call_to_undefined_function.bms", f_analysis_error_call_to_undefined_function);
   ("test/analysis_error/codegen_call_to_unanalyzed.bms", f_analysis_error_codegen_call_to_unanalyzed);
   ("test/analysis_error/continue_outside_loop.bms", f_analysis_error_continue_outside_loop);
   ("test/analysis_error/empty_return_in_non_void_function.bms", f_analysis_error_empty_return_in_non_void_function);
   ("test/analysis_error/failed_to_define_function.bms", f_analysis_error_failed_to_define_function);
   ("test/analysis_error/failed_to_define_global_const.bms", f_analysis_error_failed_to_define_global_const);
   ("test/analysis_error/failed_to_define_parameter.bms", f_analysis_error_failed_to_define_parameter);
   ("test/analysis_error/failed_to_define_variable.bms", f_analysis_error_failed_to_define_variable);
   ("test/analysis_error/function_in_expression.bms", f_analysis_error_function_in_expression);
   ("test/analysis_error/incompatible_widths.bms", f_analysis_error_incompatible_widths);
   ("test/analysis_error/int_bitwise.bms", f_analysis_error_int_bitwise);
   ("test/analysis_error/invalid_integer_literal.bms", f_analysis_error_invalid_integer_literal);
   ("test/analysis_error/let_variable_in_constant_expression.bms", f_analysis_error_let_variable_in_constant_expression);
   ("test/analysis_error/non_bool_logical.bms", f_analysis_error_non_bool_logical);
   ("test/analysis_error/parameter_in_constant_expression.bms", f_analysis_error_parameter_in_constant_expression);
   ("test/analysis_error/reference_to_undefined_variable.bms", f_analysis_error_reference_to_undefined_variable);
   ("test/analysis_error/requires_clause_not_bool.bms", f_analysis_error_requires_clause_not_bool);
   ("test/analysis_error/requires_clause_not_satisfied.bms", f_analysis_error_requires_clause_not_satisfied);
   ("test/analysis_error/static_assert_expression_not_bool.bms", f_analysis_error_static_assert_expression_not_bool);
   ("test/analysis_error/use_of_undefined_variable.bms", f_analysis_error_use_of_undefined_variable);
   ("test/analysis_error/void_operation.bms", f_analysis_error_void_operation);
   ("test/analysis_error/width_deduction_from_non_uint.bms", f_analysis_error_width_deduction_from_non_uint);
   ("test/analysis_error/width_not_integer.bms", f_analysis_error_width_not_integer);
   ("test/analysis_error/wrong_number_of_arguments.bms", f_analysis_error_wrong_number_of_arguments);
   ("test/analysis_error/annotation/argument_duplicate.bms", f_analysis_error_annotation_argument_duplicate);
   ("test/analysis_error/annotation/argument_wrong_type.bms", f_analysis_error_annotation_argument_wrong_type);
   ("test/analysis_error/annotation/argument_wrong_value.bms", f_analysis_error_annotation_argument_wrong_value);
   ("test/analysis_error/annotation/missing_argument.bms", f_analysis_error_annotation_missing_argument);
   ("test/analysis_error/annotation/not_applicable.bms", f_analysis_error_annotation_not_applicable);
   ("test/analysis_error/annotation/too_many_arguments.bms", f_analysis_error_annotation_too_many_arguments);
   ("test/analysis_error/annotation/unknown.bms", f_analysis_error_annotation_unknown);
   ("test/analysis_error/annotation/unknown_parameter.bms", f_analysis_error_annotation_unknown_parameter);
   ("test/analysis_error/condition_not_bool/if_expression.bms", f_analysis_error_condition_not_bool_if_expression);
   ("test/analysis_error/condition_not_bool/if_statement.bms", f_analysis_error_condition_not_bool_if_statement);
   ("test/analysis_error/incompatible_types/argument.bms", f_analysis_error_incompatible_types_argument);
   ("test/analysis_error/incompatible_types/as.bms", f_analysis_error_incompatible_types_as);
   ("test/analysis_error/incompatible_types/binary_expression.bms", f_analysis_error_incompatible_types_binary_expression);
   ("test/analysis_error/incompatible_types/return.bms", f_analysis_error_incompatible_types_return);
   ("test/analysis_error/static_assertion_failed/constant.bms", f_analysis_error_static_assertion_failed_constant);
   ("test/analysis_error/static_assertion_failed/function.bms", f_analysis_error_static_assertion_failed_function);
   ("test/analysis_error/static_assertion_failed/literal.bms", f_analysis_error_static_assertion_failed_literal);
   ("test/analysis_error/use_of_undefined_constant/direct.bms", f_analysis_error_use_of_undefined_constant_direct);
   ("test/analysis_error/use_of_undefined_constant/indirect.bms", f_analysis_error_use_of_undefined_constant_indirect);
   ("test/analysis_error/width_invalid/negative.bms", f_analysis_error_width_invalid_negative);
   ("test/analysis_error/width_invalid/too_large.bms", f_analysis_error_width_invalid_too_large);
   ("test/analysis_error/width_invalid/zero.bms", f_analysis_error_width_invalid_zero);
   ("test/parse_error/global_let.bms", f_parse_error_global_let);
   ("test/parse_error/let_let.bms", f_parse_error_let_let);
   ("test/parse_error/let_no_type_no_init.bms", f_parse_error_let_no_type_no_init);
   ("test/parse_error/nameless_function.bms", f_parse_error_nameless_function);
   ("test/parse_error/unbalanced_parentheses.bms", f_parse_error_unbalanced_parentheses);
   ("test/syntax/annotated_everything.bms", f_syntax_annotated_everything);
   ("test/syntax/annotated_function_calls.bms", f_syntax_annotated_function_calls);
   ("test/syntax/annotated_loop.bms", f_syntax_annotated_loop);
   ("test/syntax/annotation_with_arguments.bms", f_syntax_annotation_with_arguments);
   ("test/syntax/empty_function_void.bms", f_syntax_empty_function_void);
   ("test/syntax/function_return_zero.bms", f_syntax_function_return_zero);
   ("test/syntax/global_const.bms", f_syntax_global_const);
   ("test/tokenize_error/illegal_character.bms", f_tokenize_error_illegal_character);
   ("test/tokenize_error/integer_suffix.bms", f_tokenize_error_integer_suffix);
   ("test/tokenize_error/no_digits_following_integer_prefix.bms", f_tokenize_error_no_digits_following_integer_prefix);
   ("test/tokenize_error/unterminated_comment.bms", f_tokenize_error_unterminated_comment);
   ("test/valid_bms/assert.bms", f_valid_bms_assert);
   ("test/valid_bms/consteval_return_conversion.bms", f_valid_bms_consteval_return_conversion);
   ("test/valid_bms/deduction.bms", f_valid_bms_deduction);
   ("test/valid_bms/dependent_static_assert.bms", f_valid_bms_dependent_static_assert);
   ("test/valid_bms/identity.bms", f_valid_bms_identity);
   ("test/valid_bms/if_expression.bms", f_valid_bms_if_expression);
   ("test/valid_bms/loop.bms", f_valid_bms_loop);
   ("test/valid_bms/return_variable.bms", f_valid_bms_return_variable);
   ("test/valid_bms/static_assert.bms", f_valid_bms_static_assert);
   ("test/valid_bms/void.bms", f_valid_bms_void)].
Definition project : world := (* test *)
  World (fun path => match find (fun f => text_eqb (str (fst f)) path) files with
                     | Some f => Content (snd f)
                     | None => Unopenable
                     end) (fun _ => Uncreatable).

(** The errors of the analysis, without their places (src/bms/analysis_error.hpp:180-300). *)
Definition without_place (c : detailed_code) : ErrorPrint.analysis_error :=
  AnalysisError c ex_none (DebugInfo dc_program None []) None None None.
Definition reported (_ : list pdecl) (e : tool_error) : ErrorPrint.analysis_error := (* src/bms/analysis_error.hpp:180-300 *)
  without_place
    match e with
    | te_front f => match reported_code f with Some c => c | None => d_execution_lost end
    | te_analysis (ge_analysis a) => match reported_code (fe_analysis a) with Some c => c | None => d_execution_lost end
    | te_analysis ge_width_deduction_from_non_uint => d_plain ac_width_deduction_from_non_uint
    | te_analysis ge_expected_constant_expression => d_plain ac_expected_constant_expression
    end.

(** The functions of src/test/program_file_testing.hpp:57-67. *)
Definition succeeds (file : string) (s : stage) : verdict :=
  test_for_success 5000 50 reported false project (str file) s.
Definition introspects (file : string) f : verdict := (* src/test/program_file_testing.hpp:59-61 *)
  test_for_success_then_introspect 5000 50 reported false project (str file) f.
Definition bad_tokens (file : string) c : verdict := (* src/test/program_file_testing.hpp:63 *)
  test_for_tokenize_error 5000 50 reported false project (str file) c.
Definition bad_syntax (file : string) r l t : verdict := (* src/test/program_file_testing.hpp:65 *)
  test_for_parse_error 5000 50 reported false project (str file) (Parse_Expectations r l t).
Definition bad_program (file : string) c : verdict := (* src/test/program_file_testing.hpp:67 *)
  test_for_analysis_error 5000 50 reported false project (str file) (Analysis_Expectations (expect_code c) None None).

(** [find_global_constant] (src/bms/ast.cpp:351-362, 610-641) and its [const_value]; the assertion is that of
    src/test/main.cpp:68, 79. *)
Definition constant_named (name : string) (l : list declaration) : outcome Empty_set avalue :=
  match find (fun d => match d with
                       | Decl_Function f => text_eqb (f_name f) (str name)
                       | Decl_Statement (SConst _ n _ _ _) => text_eqb n (str name)
                       | _ => false
                       end) l with
  | Some (Decl_Statement (SConst (Some v) _ _ _ _)) => Ok v
  | _ => Abort
  end.

(** The introspection of src/test/main.cpp:64-89. *)
Definition both_uint32 (l : list declaration) : outcome Empty_set bool :=
  let* x := constant_named "x" l in
  if negb (ctype_eqb (av_type x) (TUint 32)) then Ok false
  else let* z := constant_named "z" l in Ok (ctype_eqb (av_type z) (TUint 32)).

(** * The tests *)

(** The tests named [BMS_Syntax] (src/test/main.cpp:22-55). *)
Definition tests_syntax : list verdict :=
  [succeeds "syntax/annotated_everything.bms" stage_parse;
   succeeds "syntax/annotated_function_calls.bms" stage_parse;
   succeeds "syntax/annotated_loop.bms" stage_parse;
   succeeds "syntax/annotation_with_arguments.bms" stage_parse;
   succeeds "syntax/empty_function_void.bms" stage_parse;
   succeeds "syntax/function_return_zero.bms" stage_parse;
   succeeds "syntax/global_const.bms" stage_parse].
Example tests_syntax_pass : forallb (fun v => match v with Some (Ok b) => b | _ => false end) tests_syntax = true /\
  length tests_syntax = 7%nat.
Proof. vm_compute. split; reflexivity. Qed.

(** The tests named [Valid_BMS] (src/test/main.cpp:57-132). *)
Definition tests_valid : list verdict :=
  [succeeds "valid_bms/assert.bms" stage_analyze;
   introspects "valid_bms/consteval_return_conversion.bms" both_uint32;
   succeeds "valid_bms/deduction.bms" stage_analyze;
   succeeds "valid_bms/dependent_static_assert.bms" stage_analyze;
   succeeds "valid_bms/identity.bms" stage_analyze;
   succeeds "valid_bms/if_expression.bms" stage_analyze;
   succeeds "valid_bms/loop.bms" stage_analyze;
   succeeds "valid_bms/return_variable.bms" stage_analyze;
   succeeds "valid_bms/static_assert.bms" stage_analyze;
   succeeds "valid_bms/void.bms" stage_analyze].
Example tests_valid_pass : forallb (fun v => match v with Some (Ok b) => b | _ => false end) tests_valid = true /\
  length tests_valid = 10%nat.
Proof. vm_compute. split; reflexivity. Qed.

(** The tests named [BMS_Tokenize_Error] (src/test/main.cpp:134-156). *)
Definition tests_tok : list verdict :=
  [bad_tokens "tokenize_error/illegal_character.bms" illegal_character;
   bad_tokens "tokenize_error/no_digits_following_integer_prefix.bms" no_digits_following_integer_prefix;
   bad_tokens "tokenize_error/integer_suffix.bms" integer_suffix;
   bad_tokens "tokenize_error/unterminated_comment.bms" unterminated_comment].
Example tests_tok_pass : forallb (fun v => match v with Some (Ok b) => b | _ => false end) tests_tok = true /\
  length tests_tok = 4%nat.
Proof. vm_compute. split; reflexivity. Qed.

(** The tests named [BMS_Parse_Error] (src/test/main.cpp:158-195). *)
Definition tests_parse : list verdict :=
  [bad_syntax "parse_error/global_let.bms" None (Some 1%nat) (Some tk_keyword_let);
   bad_syntax "parse_error/let_let.bms" (Some gr_let_declaration) (Some 2%nat) (Some tk_keyword_let);
   bad_syntax "parse_error/let_no_type_no_init.bms" None (Some 2%nat) (Some tk_semicolon);
   bad_syntax "parse_error/nameless_function.bms" (Some gr_function_declaration) (Some 1%nat) (Some tk_left_parenthesis);
   bad_syntax "parse_error/unbalanced_parentheses.bms" None (Some 1%nat) (Some tk_assign)].
Example tests_parse_pass : forallb (fun v => match v with Some (Ok b) => b | _ => false end) tests_parse = true /\
  length tests_parse = 5%nat.
Proof. vm_compute. split; reflexivity. Qed.

(** The tests named [BMS_Analysis_Error] (src/test/main.cpp:197-643). *)
Definition tests_an : list verdict :=
  [bad_program "analysis_error/failed_to_define_global_const.bms" ac_failed_to_define_global_const;
   bad_program "analysis_error/failed_to_define_function.bms" ac_failed_to_define_function;
   bad_program "analysis_error/failed_to_define_parameter.bms" ac_failed_to_define_parameter;
   bad_program "analysis_error/failed_to_define_variable.bms" ac_failed_to_define_variable;
   bad_program "analysis_error/reference_to_undefined_variable.bms" ac_reference_to_undefined_variable;
   bad_program "analysis_error/assignment_of_undefined_variable.bms" ac_assignment_of_undefined_variable;
   bad_program "analysis_error/call_to_undefined_function.bms" ac_call_to_undefined_function;
   bad_program "analysis_error/width_not_integer.bms" ac_width_not_integer;
   bad_program "analysis_error/width_invalid/negative.bms" ac_width_invalid;
   bad_program "analysis_error/width_invalid/too_large.bms" ac_width_invalid;
   bad_program "analysis_error/width_invalid/zero.bms" ac_width_invalid;
   bad_program "analysis_error/let_variable_in_constant_expression.bms" ac_let_variable_in_constant_expression;
   bad_program "analysis_error/parameter_in_constant_expression.bms" ac_parameter_in_constant_expression;
   bad_program "analysis_error/function_in_expression.bms" ac_function_in_expression;
   bad_program "analysis_error/condition_not_bool/if_expression.bms" ac_condition_not_bool;
   bad_program "analysis_error/condition_not_bool/if_statement.bms" ac_condition_not_bool;
   bad_program "analysis_error/invalid_integer_literal.bms" ac_invalid_integer_literal;
   bad_program "analysis_error/assigning_parameter.bms" ac_assigning_parameter;
   bad_program "analysis_error/assigning_function.bms" ac_assigning_function;
   bad_program "analysis_error/assigning_const.bms" ac_assigning_const;
   bad_program "analysis_error/call_non_function.bms" ac_call_non_function;
   bad_program "analysis_error/wrong_number_of_arguments.bms" ac_wrong_number_of_arguments;
   bad_program "analysis_error/codegen_call_to_unanalyzed.bms" ac_codegen_call_to_unanalyzed;
   bad_program "analysis_error/width_deduction_from_non_uint.bms" ac_width_deduction_from_non_uint;
   bad_program "analysis_error/static_assert_expression_not_bool.bms" ac_static_assert_expression_not_bool;
   bad_program "analysis_error/static_assertion_failed/constant.bms" ac_static_assertion_failed;
   bad_program "analysis_error/static_assertion_failed/function.bms" ac_static_assertion_failed;
   bad_program "analysis_error/static_assertion_failed/literal.bms" ac_static_assertion_failed;
   bad_program "analysis_error/requires_clause_not_bool.bms" ac_requires_clause_not_bool;
   bad_program "analysis_error/requires_clause_not_satisfied.bms" ac_requires_clause_not_satisfied;
   bad_program "analysis_error/use_of_undefined_variable.bms" ac_use_of_undefined_variable;
   bad_program "analysis_error/use_of_undefined_constant/direct.bms" ac_use_of_undefined_constant;
   bad_program "analysis_error/use_of_undefined_constant/indirect.bms" ac_use_of_undefined_constant;
   bad_program "analysis_error/empty_return_in_non_void_function.bms" ac_empty_return_in_non_void_function;
   bad_program "analysis_error/void_operation.bms" ac_void_operation;
   bad_program "analysis_error/bool_arithmetic.bms" ac_bool_arithmetic;
   bad_program "analysis_error/bool_bitwise.bms" ac_bool_bitwise;
   bad_program "analysis_error/bool_relational_comparison.bms" ac_bool_relational_comparison;
   bad_program "analysis_error/int_bitwise.bms" ac_int_bitwise;
   bad_program "analysis_error/non_bool_logical.bms" ac_non_bool_logical;
   bad_program "analysis_error/incompatible_types/argument.bms" ac_incompatible_types;
   bad_program "analysis_error/incompatible_types/as.bms" ac_incompatible_types;
   bad_program "analysis_error/incompatible_types/binary_expression.bms" ac_incompatible_types;
   bad_program "analysis_error/incompatible_types/return.bms" ac_incompatible_types;
   bad_program "analysis_error/incompatible_widths.bms" ac_incompatible_widths;
   bad_program "analysis_error/break_outside_loop.bms" ac_break_outside_loop;
   bad_program "analysis_error/continue_outside_loop.bms" ac_continue_outside_loop;
   bad_program "analysis_error/annotation/unknown.bms" ac_annotation_unknown;
   bad_program "analysis_error/annotation/not_applicable.bms" ac_annotation_not_applicable;
   bad_program "analysis_error/annotation/too_many_arguments.bms" ac_annotation_too_many_arguments;
   bad_program "analysis_error/annotation/unknown_parameter.bms" ac_annotation_unknown_parameter;
   bad_program "analysis_error/annotation/argument_duplicate.bms" ac_annotation_argument_duplicate;
   bad_program "analysis_error/annotation/argument_wrong_type.bms" ac_annotation_argument_wrong_type;
   bad_program "analysis_error/annotation/argument_wrong_value.bms" ac_annotation_argument_wrong_value;
   bad_program "analysis_error/annotation/missing_argument.bms" ac_annotation_missing_argument].
Example tests_an_pass : forallb (fun v => match v with Some (Ok b) => b | _ => false end) tests_an = true /\
  length tests_an = 55%nat.
Proof. vm_compute. split; reflexivity. Qed.

