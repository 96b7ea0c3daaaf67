(** The grammar of BMS, written down from src/bms/parsing/grammar.ebnf: which token sequences are
    sentences, and which tree belongs to a sentence.  The relations say how much of a token list a
    phrase takes: [derive d n ts e rest] is "[ts] starts with a phrase of the nonterminal [n] that has
    the tree [e], and [rest] comes after it".  Comments may stand in front of any token.

    Independent of the parser: only the types of tokens and trees come from the model. *)
From Coq Require Import ZArith Ascii String List Bool.
From Verif Require Import Prelude Text Tables Annotations Ast Parse.
Import ListNotations.
Open Scope string_scope.
Open Scope list_scope.
Open Scope Z_scope.

Definition comments : list token_type := [tk_line_comment; tk_block_comment].

Definition arithmetic_operators : list token_type :=
  [tk_plus; tk_minus; tk_multiplication; tk_division; tk_remainder].
Definition comparison_operators : list token_type :=
  [tk_equals; tk_not_equals; tk_less_than; tk_greater_than; tk_less_or_equal; tk_greater_or_equal].
Definition logical_operators : list token_type := [tk_logical_and; tk_logical_or].
Definition bitwise_operators : list token_type :=
  [tk_shift_left; tk_shift_right; tk_bitwise_and; tk_bitwise_or; tk_bitwise_xor].
Definition binary_operators : list token_type :=
  arithmetic_operators ++ comparison_operators ++ logical_operators ++ bitwise_operators.
Definition unary_operators : list token_type :=
  [tk_plus; tk_minus; tk_logical_not; tk_bitwise_not].

Definition integer_literals : list token_type :=
  [tk_binary_literal; tk_octal_literal; tk_decimal_literal; tk_hexadecimal_literal].
Definition boolean_literals : list token_type := [tk_keyword_true; tk_keyword_false].
Definition literals : list token_type := integer_literals ++ boolean_literals ++ [tk_string_literal].

(** One token: [ts] is [t], then [rest], up to comments in front of [t]. *)
Inductive token_then : list lexeme -> token_type -> text -> list lexeme -> Prop :=
| tt_here : forall k x ts, ~ In k comments -> token_then ((k, x) :: ts) k x ts
| tt_comment : forall c x ts k y rest,
    In c comments -> token_then ts k y rest -> token_then ((c, x) :: ts) k y rest.

(** A token whose text is of no interest. *)
Definition eats (k : token_type) (ts rest : list lexeme) : Prop := exists x, token_then ts k x rest.

(** Nothing but comments is left. *)
Definition at_end (ts : list lexeme) : Prop := forall k x, In (k, x) ts -> In k comments.

(** ** What distinguishes the grammar as documented from the language that the parser accepts *)

(** [commas_optional]: arguments of a call may stand next to each other.  [string_expressions]: string
    literals are expressions.  [annotated_else]: annotations may stand between [else] and [if], as
    [else_statement = "else", (if_statement | block_statement)] has it.  [choice ts b]: a binary
    expression at the start of [ts] may be taken for a comparison ([b = true]) or for something else
    ([b = false]). *)
Record dialect : Type := Dialect {
  commas_optional : bool;
  string_expressions : bool;
  annotated_else : bool;
  choice : list lexeme -> bool -> Prop
}.

(** src/bms/parsing/grammar.ebnf. *)
Definition documented : dialect := Dialect false false true (fun _ _ => True).

(** The nesting depth after some tokens, relative to where they start. *)
Fixpoint depth (ts : list lexeme) : Z :=
  match ts with
  | [] => 0
  | (tk_left_parenthesis, _) :: ts' => 1 + depth ts'
  | (tk_right_parenthesis, _) :: ts' => depth ts' - 1
  | _ :: ts' => depth ts'
  end.

(** A comparison operator follows in the same statement, as deeply nested as the start of the tokens,
    with no [if] in between that is as deeply nested.  This is the question that the parser asks before
    it takes a binary expression for a comparison. *)
Definition comparison_ahead (ts : list lexeme) : Prop :=
  exists before op x after,
    ts = before ++ (op, x) :: after /\
    In op comparison_operators /\
    depth before = 0 /\
    (forall k y, In (k, y) before -> ~ In k [tk_left_brace; tk_right_brace; tk_semicolon]) /\
    (forall p y q, before = p ++ (tk_keyword_if, y) :: q -> depth p <> 0).

(** A choice that goes by this question. *)
Definition foreseen (ts : list lexeme) (b : bool) : Prop := b = true <-> comparison_ahead ts.

(** What the parser accepts at most, and what it accepts at least. *)
Definition upper : dialect := Dialect true true false foreseen.
Definition lower : dialect := Dialect false true false foreseen.

(** ** Annotations *)

(** The value of a literal in an annotation: without the quotes if it is a string. *)
Definition argument_text (k : token_type) (x v : text) : Prop :=
  if token_type_eqb k tk_string_literal then exists c d, x = c :: v ++ [d] else v = x.

Inductive annotation_arg : list lexeme -> annotation_argument -> list lexeme -> Prop :=
| aa_positional : forall ts k x v rest,
    token_then ts k x rest -> In k literals -> argument_text k x v ->
    annotation_arg ts (AA (str "") v k) rest
| aa_named : forall ts key r1 r2 k x v rest,
    token_then ts tk_identifier key r1 -> eats tk_assign r1 r2 ->
    token_then r2 k x rest -> In k literals -> argument_text k x v ->
    annotation_arg ts (AA key v k) rest.

(** [annotation_argument_sequence] *)
Inductive annotation_args : list lexeme -> list annotation_argument -> list lexeme -> Prop :=
| aas_one : forall ts a rest, annotation_arg ts a rest -> annotation_args ts [a] rest
| aas_more : forall ts a r1 r2 l rest,
    annotation_arg ts a r1 -> eats tk_comma r1 r2 -> annotation_args r2 l rest ->
    annotation_args ts (a :: l) rest.

(** ["(", [annotation_argument_sequence], ")"] *)
Inductive argument_list : list lexeme -> list annotation_argument -> list lexeme -> Prop :=
| al_empty : forall ts r1 rest,
    eats tk_left_parenthesis ts r1 -> eats tk_right_parenthesis r1 rest -> argument_list ts [] rest
| al_args : forall ts r1 l r2 rest,
    eats tk_left_parenthesis ts r1 -> annotation_args r1 l r2 -> eats tk_right_parenthesis r2 rest ->
    argument_list ts l rest.

Inductive annotation_phrase : list lexeme -> parsed_annotation -> list lexeme -> Prop :=
| annotation_bare : forall ts r1 name rest,
    eats tk_at ts r1 -> token_then r1 tk_identifier name rest -> annotation_phrase ts (PAnn name []) rest
| annotation_intro : forall ts r1 name r2 args rest,
    eats tk_at ts r1 -> token_then r1 tk_identifier name r2 -> argument_list r2 args rest ->
    annotation_phrase ts (PAnn name args) rest.

(** [[annotation_sequence]] *)
Inductive annotations_phrase : list lexeme -> list parsed_annotation -> list lexeme -> Prop :=
| as_none : forall ts, annotations_phrase ts [] ts
| as_more : forall ts a r1 l rest,
    annotation_phrase ts a r1 -> annotations_phrase r1 l rest ->
    annotations_phrase ts (a :: l) rest.

(** ** Expressions and types *)

Inductive nonterminal : Type :=
| n_expression | n_if | n_binary | n_arithmetic | n_prefix | n_postfix | n_call | n_primary
| n_parenthesized.

Section Grammar.
Variable d : dialect.

Inductive derive : nonterminal -> list lexeme -> pexpr -> list lexeme -> Prop :=
(** [expression] and [conversion_expression] *)
| d_conversion : forall ts e r1 r2 t rest,
    derive n_prefix ts e r1 -> eats tk_keyword_as r1 r2 -> derive_type r2 t rest ->
    derive n_expression ts (PConversion e t) rest
| d_expression : forall ts e rest, derive n_if ts e rest -> derive n_expression ts e rest
(** [if_expression] *)
| d_binary : forall ts e rest, derive n_binary ts e rest -> derive n_if ts e rest
| d_if : forall ts a r1 r2 c r3 r4 b rest,
    derive n_binary ts a r1 -> eats tk_keyword_if r1 r2 -> derive n_binary r2 c r3 ->
    eats tk_keyword_else r3 r4 -> derive n_if r4 b rest ->
    derive n_if ts (PIf a c b) rest
(** [binary_expression] and [comparison_expression] *)
| d_comparison : forall ts a r1 op x r2 b rest,
    choice d ts true ->
    derive n_arithmetic ts a r1 -> token_then r1 op x r2 -> In op comparison_operators ->
    derive n_arithmetic r2 b rest ->
    derive n_binary ts (PBinary op a b) rest
| d_operand : forall ts e rest,
    choice d ts false -> derive n_prefix ts e rest -> derive n_binary ts e rest
| d_operation : forall ts a r1 op x r2 b rest,
    choice d ts false ->
    derive n_prefix ts a r1 -> token_then r1 op x r2 -> In op binary_operators ->
    derive n_prefix r2 b rest ->
    derive n_binary ts (PBinary op a b) rest
(** [arithmetic_expression] *)
| d_term : forall ts e rest, derive n_prefix ts e rest -> derive n_arithmetic ts e rest
| d_arithmetic : forall ts a r1 op x r2 b rest,
    derive n_prefix ts a r1 -> token_then r1 op x r2 -> In op arithmetic_operators ->
    derive n_prefix r2 b rest ->
    derive n_arithmetic ts (PBinary op a b) rest
(** [prefix_expression] *)
| d_unary : forall ts op x r1 e rest,
    token_then ts op x r1 -> In op unary_operators -> derive n_postfix r1 e rest ->
    derive n_prefix ts (PPrefix op e) rest
| d_postfix : forall ts e rest, derive n_postfix ts e rest -> derive n_prefix ts e rest
(** [postfix_expression] and [function_call_expression] *)
| d_is_call : forall ts e rest, derive n_call ts e rest -> derive n_postfix ts e rest
| d_is_primary : forall ts e rest, derive n_primary ts e rest -> derive n_postfix ts e rest
| d_call_none : forall ts name r1 r2 r3 annotations rest,
    token_then ts tk_identifier name r1 -> eats tk_left_parenthesis r1 r2 ->
    eats tk_right_parenthesis r2 r3 -> annotations_phrase r3 annotations rest ->
    derive n_call ts (PCall name [] annotations false) rest
| d_call : forall ts name r1 r2 args r3 r4 annotations rest,
    token_then ts tk_identifier name r1 -> eats tk_left_parenthesis r1 r2 ->
    derive_sequence r2 args r3 -> eats tk_right_parenthesis r3 r4 ->
    annotations_phrase r4 annotations rest ->
    derive n_call ts (PCall name args annotations false) rest
(** [primary_expression] and [parenthesized_expression] *)
| d_literal : forall ts k x rest,
    token_then ts k x rest ->
    In k (integer_literals ++ boolean_literals) \/
      (string_expressions d = true /\ k = tk_string_literal) ->
    derive n_primary ts (PLiteral x k) rest
| d_identifier : forall ts x rest,
    token_then ts tk_identifier x rest -> derive n_primary ts (PId x) rest
| d_is_parenthesized : forall ts e rest,
    derive n_parenthesized ts e rest -> derive n_primary ts e rest
| d_parenthesized : forall ts r1 e r2 rest,
    eats tk_left_parenthesis ts r1 -> derive n_expression r1 e r2 ->
    eats tk_right_parenthesis r2 rest ->
    derive n_parenthesized ts e rest
(** [expression_sequence] *)
with derive_sequence : list lexeme -> list pexpr -> list lexeme -> Prop :=
| d_one : forall ts e rest, derive n_expression ts e rest -> derive_sequence ts [e] rest
| d_more : forall ts e r1 r2 l rest,
    derive n_expression ts e r1 -> eats tk_comma r1 r2 -> derive_sequence r2 l rest ->
    derive_sequence ts (e :: l) rest
| d_more_without_comma : forall ts e r1 l rest,
    commas_optional d = true ->
    derive n_expression ts e r1 -> derive_sequence r1 l rest ->
    derive_sequence ts (e :: l) rest
(** [type] and [uint] *)
with derive_type : list lexeme -> ptype -> list lexeme -> Prop :=
| d_bool : forall ts rest, eats tk_keyword_bool ts rest -> derive_type ts (PType tt_Bool None) rest
| d_int : forall ts rest, eats tk_keyword_int ts rest -> derive_type ts (PType tt_Int None) rest
| d_void : forall ts rest, eats tk_keyword_void ts rest -> derive_type ts (PType tt_Void None) rest
| d_uint : forall ts r1 e rest,
    eats tk_keyword_uint ts r1 -> derive n_parenthesized r1 e rest ->
    derive_type ts (PType tt_Uint (Some e)) rest.

(** ** Statements *)

(** [[":", type]] *)
Inductive type_phrase : list lexeme -> option ptype -> list lexeme -> Prop :=
| tp_none : forall ts, type_phrase ts None ts
| tp_some : forall ts r1 t rest,
    eats tk_colon ts r1 -> derive_type r1 t rest -> type_phrase ts (Some t) rest.

(** [initializer] *)
Definition initializer_phrase (ts : list lexeme) (e : pexpr) (rest : list lexeme) : Prop :=
  exists r1, eats tk_assign ts r1 /\ derive n_expression r1 e rest.

(** [let_declaration] after its annotations *)
Inductive let_phrase (annotations : list parsed_annotation)
  : list lexeme -> pstmt -> list lexeme -> Prop :=
| let_uninitialized : forall ts r1 x r2 r3 t r4 rest,
    eats tk_keyword_let ts r1 -> token_then r1 tk_identifier x r2 -> eats tk_colon r2 r3 ->
    derive_type r3 t r4 -> eats tk_semicolon r4 rest ->
    let_phrase annotations ts (PLet x annotations (Some t) None) rest
| let_initialized : forall ts r1 x r2 t r3 e r4 rest,
    eats tk_keyword_let ts r1 -> token_then r1 tk_identifier x r2 -> type_phrase r2 t r3 ->
    initializer_phrase r3 e r4 -> eats tk_semicolon r4 rest ->
    let_phrase annotations ts (PLet x annotations t (Some e)) rest.

(** [const_declaration] after its annotations.  The semicolon at the end is missing from
    src/bms/parsing/grammar.ebnf; every program has it. *)
Inductive const_phrase (annotations : list parsed_annotation)
  : list lexeme -> pstmt -> list lexeme -> Prop :=
| const_intro : forall ts r1 x r2 t r3 e r4 rest,
    eats tk_keyword_const ts r1 -> token_then r1 tk_identifier x r2 -> type_phrase r2 t r3 ->
    initializer_phrase r3 e r4 -> eats tk_semicolon r4 rest ->
    const_phrase annotations ts (PConst x annotations t e) rest.

(** [static_assertion] *)
Inductive assertion_phrase : list lexeme -> pstmt -> list lexeme -> Prop :=
| assertion_intro : forall ts r1 e r2 rest,
    eats tk_keyword_static_assert ts r1 -> derive n_parenthesized r1 e r2 ->
    eats tk_semicolon r2 rest -> assertion_phrase ts (PStatic_Assert e) rest.

(** [assignment_statement] after its annotations *)
Inductive assignment_phrase (annotations : list parsed_annotation)
  : list lexeme -> pstmt -> list lexeme -> Prop :=
| assignment_intro : forall ts x r1 r2 e r3 rest,
    token_then ts tk_identifier x r1 -> eats tk_assign r1 r2 -> derive n_expression r2 e r3 ->
    eats tk_semicolon r3 rest -> assignment_phrase annotations ts (PAssignment x annotations e) rest.

Inductive statement_phrase : list lexeme -> pstmt -> list lexeme -> Prop :=
| st_let : forall ts annotations r1 s rest,
    annotations_phrase ts annotations r1 -> let_phrase annotations r1 s rest ->
    statement_phrase ts s rest
| st_const : forall ts annotations r1 s rest,
    annotations_phrase ts annotations r1 -> const_phrase annotations r1 s rest ->
    statement_phrase ts s rest
| st_assertion : forall ts s rest, assertion_phrase ts s rest -> statement_phrase ts s rest
| st_assignment : forall ts annotations r1 s rest,
    annotations_phrase ts annotations r1 -> assignment_phrase annotations r1 s rest ->
    statement_phrase ts s rest
| st_call : forall ts name args annotations r1 rest,
    derive n_call ts (PCall name args annotations false) r1 -> eats tk_semicolon r1 rest ->
    statement_phrase ts (PExpr (PCall name args annotations true)) rest
| st_break : forall ts r1 rest,
    eats tk_keyword_break ts r1 -> eats tk_semicolon r1 rest -> statement_phrase ts PBreak rest
| st_continue : forall ts r1 rest,
    eats tk_keyword_continue ts r1 -> eats tk_semicolon r1 rest -> statement_phrase ts PContinue rest
| st_return_nothing : forall ts r1 rest,
    eats tk_keyword_return ts r1 -> eats tk_semicolon r1 rest ->
    statement_phrase ts (PReturn None) rest
| st_return : forall ts r1 e r2 rest,
    eats tk_keyword_return ts r1 -> derive n_expression r1 e r2 -> eats tk_semicolon r2 rest ->
    statement_phrase ts (PReturn (Some e)) rest
| st_if : forall ts annotations r1 s rest,
    annotations_phrase ts annotations r1 -> if_phrase annotations r1 s rest ->
    statement_phrase ts s rest
| st_while : forall ts annotations r1 r2 c r3 b rest,
    annotations_phrase ts annotations r1 -> eats tk_keyword_while r1 r2 ->
    derive n_expression r2 c r3 -> block_phrase r3 b rest ->
    statement_phrase ts (PWhile annotations c b) rest
| st_block : forall ts b rest, block_phrase ts b rest -> statement_phrase ts (PBlock b) rest
(** [if_statement] after its annotations, with [else_statement] *)
with if_phrase : list parsed_annotation -> list lexeme -> pstmt -> list lexeme -> Prop :=
| if_only : forall annotations ts r1 c r2 b rest,
    eats tk_keyword_if ts r1 -> derive n_expression r1 c r2 -> block_phrase r2 b rest ->
    if_phrase annotations ts (PIf_Statement annotations c b None) rest
| if_else : forall annotations ts r1 c r2 b r3 r4 e rest,
    eats tk_keyword_if ts r1 -> derive n_expression r1 c r2 -> block_phrase r2 b r3 ->
    eats tk_keyword_else r3 r4 -> block_phrase r4 e rest ->
    if_phrase annotations ts (PIf_Statement annotations c b (Some (PBlock e))) rest
| if_else_if : forall annotations ts r1 c r2 b r3 r4 annotations' r5 e rest,
    eats tk_keyword_if ts r1 -> derive n_expression r1 c r2 -> block_phrase r2 b r3 ->
    eats tk_keyword_else r3 r4 -> annotations_phrase r4 annotations' r5 ->
    annotated_else d = true \/ annotations' = [] ->
    if_phrase annotations' r5 e rest ->
    if_phrase annotations ts (PIf_Statement annotations c b (Some e)) rest
(** [block_statement] *)
with block_phrase : list lexeme -> list pstmt -> list lexeme -> Prop :=
| block_intro : forall ts r1 l r2 rest,
    eats tk_left_brace ts r1 -> statements_phrase r1 l r2 -> eats tk_right_brace r2 rest ->
    block_phrase ts l rest
with statements_phrase : list lexeme -> list pstmt -> list lexeme -> Prop :=
| sts_none : forall ts, statements_phrase ts [] ts
| sts_more : forall ts s r1 l rest,
    statement_phrase ts s r1 -> statements_phrase r1 l rest ->
    statements_phrase ts (s :: l) rest.

(** ** Declarations *)

(** [parameter] *)
Inductive parameter_phrase : list lexeme -> pparameter -> list lexeme -> Prop :=
| parameter_intro : forall ts x r1 r2 t rest,
    token_then ts tk_identifier x r1 -> eats tk_colon r1 r2 -> derive_type r2 t rest ->
    parameter_phrase ts (PParam x t) rest.

(** [parameter_sequence] *)
Inductive parameters_phrase : list lexeme -> list pparameter -> list lexeme -> Prop :=
| ps_one : forall ts p rest, parameter_phrase ts p rest -> parameters_phrase ts [p] rest
| ps_more : forall ts p r1 r2 l rest,
    parameter_phrase ts p r1 -> eats tk_comma r1 r2 -> parameters_phrase r2 l rest ->
    parameters_phrase ts (p :: l) rest.

(** [[parameter_sequence]] *)
Definition optional_parameters (ts : list lexeme) (l : list pparameter) (rest : list lexeme) : Prop :=
  (l = [] /\ rest = ts) \/ parameters_phrase ts l rest.

(** [[requires_clause]] *)
Inductive requires_phrase : list lexeme -> option pexpr -> list lexeme -> Prop :=
| rq_none : forall ts, requires_phrase ts None ts
| rq_some : forall ts r1 e rest,
    eats tk_keyword_requires ts r1 -> derive n_expression r1 e rest ->
    requires_phrase ts (Some e) rest.

(** [function_declaration] after its annotations *)
Inductive function_phrase (annotations : list parsed_annotation)
  : list lexeme -> pfunction -> list lexeme -> Prop :=
| function_intro : forall ts r1 name r2 r3 ps r4 r5 r6 t r7 req r8 body rest,
    eats tk_keyword_function ts r1 -> token_then r1 tk_identifier name r2 ->
    eats tk_left_parenthesis r2 r3 -> optional_parameters r3 ps r4 ->
    eats tk_right_parenthesis r4 r5 -> eats tk_right_arrow r5 r6 -> derive_type r6 t r7 ->
    requires_phrase r7 req r8 -> block_phrase r8 body rest ->
    function_phrase annotations ts (PFunc name annotations ps t req body) rest.

(** [program_declaration] *)
Inductive declaration_phrase : list lexeme -> pdecl -> list lexeme -> Prop :=
| dp_const : forall ts annotations r1 s rest,
    annotations_phrase ts annotations r1 -> const_phrase annotations r1 s rest ->
    declaration_phrase ts (PD_Statement s) rest
| dp_function : forall ts annotations r1 f rest,
    annotations_phrase ts annotations r1 -> function_phrase annotations r1 f rest ->
    declaration_phrase ts (PD_Function f) rest
| dp_assertion : forall ts s rest,
    assertion_phrase ts s rest -> declaration_phrase ts (PD_Statement s) rest.

(** [program]: at least one declaration, and nothing after the last one. *)
Inductive program_phrase : list lexeme -> list pdecl -> Prop :=
| pr_last : forall ts x rest,
    declaration_phrase ts x rest -> at_end rest -> program_phrase ts [x]
| pr_more : forall ts x r1 l,
    declaration_phrase ts x r1 -> program_phrase r1 l -> program_phrase ts (x :: l).

End Grammar.

(** ** Malformed annotations *)

(** Somewhere in the tokens there is the start of an annotation with arguments, but what stands there is
    no argument list. *)
Definition malformed_annotation (ts : list lexeme) : Prop :=
  exists before here r1 name r2 r3,
    ts = before ++ here /\ eats tk_at here r1 /\ token_then r1 tk_identifier name r2 /\
    eats tk_left_parenthesis r2 r3 /\ ~ (exists args rest, argument_list r2 args rest).

(** String literals come with their quotes. *)
Definition quoted (ts : list lexeme) : Prop :=
  forall x, In (tk_string_literal, x) ts -> (2 <= length x)%nat.
