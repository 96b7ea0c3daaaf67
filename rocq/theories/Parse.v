(** The BMS parser.  Models src/bms/parsing/parse.cpp:385-1520 and the parser's tree of
    src/bms/parsing/astp.hpp.

    The state of the parser is the list of tokens that are still to come ([m_tokens] from [m_pos] on);
    every token comes with the text that [m_program.extract] yields for it (a [lexeme]).  Children are
    stored in the tree itself rather than as handles into a node table, a list that is a null handle is
    empty, and a null annotation list is the empty list (an [Annotation_List] node is never empty).

    Simplifications: source positions are not part of the trees (the position of a tree node has no
    influence on parsing).  A [Rule_Error] is kept together with the tokens that
    remained ([fail_token] is the first of these).  The loops and the
    recursion of the parser run on fuel; [None] is "out of fuel", which the properties exclude.  The
    depth of the C++ call stack is not limited. *)
From Coq Require Import ZArith Ascii String List Bool.
From Verif Require Import Prelude Text Tables Tokenizer Annotations Ast.
Import ListNotations.
Open Scope string_scope.
Open Scope list_scope.
Open Scope Z_scope.

(** A [Token] (src/bms/tokenization/token.hpp:13-26) together with its text ([extract],
    src/bms/parsing/parse.cpp:52). *)
Definition lexeme : Type := token_type * text.

(** The rules that the parser names in errors (src/bms/parsing/grammar.hpp:12-61). *)
Inductive grammar_rule : Type :=
| gr_program_declaration | gr_const_declaration | gr_let_declaration | gr_initializer
| gr_function_declaration | gr_requires_clause | gr_parameter | gr_static_assertion | gr_annotation
| gr_annotation_argument | gr_statement | gr_assignment_statement | gr_function_call_statement
| gr_assignment | gr_break_statement | gr_continue_statement | gr_return_statement | gr_if_statement
| gr_else_statement | gr_while_statement | gr_block_statement | gr_conversion_expression
| gr_if_expression | gr_comparison_expression | gr_function_call_expression | gr_primary_expression
| gr_parenthesized_expression | gr_type.

(** [Rule_Error] (src/bms/parsing/parse.cpp:374-377): the rule, and the expected tokens. *)
Definition rule_error : Type := grammar_rule * list token_type.

(** A rule with [const_array_one_v] (e.g. src/bms/parsing/parse.cpp:370,615). *)
Definition alone (rule : grammar_rule) (k : token_type) : rule_error := (rule, [k]).

(** [Parse_Error] (src/bms/parsing/parse.hpp) as made in src/bms/parsing/parse.cpp:402-404; [pe_rest]
    starts with the [fail_token]. *)
Record parse_error : Type :=
  PErr { pe_rule : grammar_rule; pe_rest : list lexeme; pe_expected : list token_type }.

(** The expression nodes of src/bms/parsing/astp.hpp:414-560 and [Type] (149-162). *)
Inductive pexpr : Type :=
| PConversion (e : pexpr) (target : ptype)
| PIf (lhs condition rhs : pexpr)
| PBinary (op : token_type) (lhs rhs : pexpr)
| PPrefix (op : token_type) (e : pexpr)
| PCall (name : text) (args : list pexpr) (annotations : list parsed_annotation) (is_statement : bool)
| PId (name : text)
| PLiteral (lit : text) (type : token_type)
with ptype : Type :=
| PType (type : type_type) (width : option pexpr).

(** The statement nodes and [Const], [Let], [Static_Assert] (src/bms/parsing/astp.hpp:164-231,292-412). *)
Inductive pstmt : Type :=
| PConst (name : text) (annotations : list parsed_annotation) (type : option ptype) (init : pexpr)
| PLet (name : text) (annotations : list parsed_annotation) (type : option ptype) (init : option pexpr)
| PStatic_Assert (e : pexpr)
| PIf_Statement (annotations : list parsed_annotation) (condition : pexpr) (block : list pstmt)
    (else_node : option pstmt)
| PWhile (annotations : list parsed_annotation) (condition : pexpr) (block : list pstmt)
| PBreak
| PContinue
| PReturn (e : option pexpr)
| PAssignment (name : text) (annotations : list parsed_annotation) (e : pexpr)
| PBlock (statements : list pstmt)
| PExpr (e : pexpr).

(** [Parameter] (src/bms/parsing/astp.hpp:135-147). *)
Record pparameter : Type := PParam { pp_name : text; pp_type : ptype }.

(** [Function] (src/bms/parsing/astp.hpp:77-113). *)
Record pfunction : Type := PFunc {
  pf_name : text;
  pf_annotations : list parsed_annotation;
  pf_parameters : list pparameter;
  pf_return_type : ptype;
  pf_requires : option pexpr;
  pf_body : list pstmt
}.

(** The declarations of a [Program] (src/bms/parsing/astp.hpp:54-75). *)
Inductive pdecl : Type :=
| PD_Function (f : pfunction)
| PD_Statement (s : pstmt).

(** [Rule_Result] (src/bms/parsing/parse.cpp:488) together with the new state; [None] is "out of fuel". *)
Definition result (A : Type) : Type := option (outcome parse_error (A * list lexeme)).

(** [if (!r) return r.error();] (e.g. src/bms/parsing/parse.cpp:547-549). *)
Definition bind_result {E A B} (x : option (outcome E A)) (f : A -> option (outcome E B))
  : option (outcome E B) :=
  match x with
  | None => None
  | Some (Ok a) => f a
  | Some (Err e) => Some (Err e)
  | Some Abort => Some Abort
  | Some UB => Some UB
  end.
Notation "'let!' p ':=' m 'in' k" := (bind_result m (fun p => k))
  (at level 200, p pattern, m at level 100, k at level 200, right associativity) : outcome_scope.

(** [skip_comments] (src/bms/parsing/parse.cpp:417-422). *)
Fixpoint skip_comments (ts : list lexeme) : list lexeme :=
  match ts with
  | t :: ts' => if tk_is_comment (fst t) then skip_comments ts' else ts
  | [] => []
  end.

(** A successful rule (e.g. src/bms/parsing/parse.cpp:560). *)
Definition matched {A} (a : A) (ts : list lexeme) : result A := Some (Ok (a, ts)).

(** [return Rule_Error { rule, ... }] (e.g. src/bms/parsing/parse.cpp:573) after a failed [expect] or
    [peek], which has skipped comments (413). *)
Definition fail {A} (r : rule_error) (ts : list lexeme) : result A :=
  Some (Err (PErr (fst r) (skip_comments ts) (snd r))).

(** [expect] (src/bms/parsing/parse.cpp:424-432,478-486). *)
Definition expect (p : token_type -> bool) (ts : list lexeme) : option (lexeme * list lexeme) :=
  match skip_comments ts with
  | t :: ts' => if p (fst t) then Some (t, ts') else None
  | [] => None
  end.

(** The predicate for one token type (src/bms/parsing/parse.cpp:463,480). *)
Definition is (t : token_type) (t' : token_type) : bool := token_type_eqb t' t.

(** [if (!expect(type)) return Rule_Error { rule, ... };] (e.g. src/bms/parsing/parse.cpp:617-620). *)
Definition demand (p : token_type -> bool) (rule : rule_error) (ts : list lexeme) : result lexeme :=
  match expect p ts with
  | Some (t, ts') => matched t ts'
  | None => fail rule ts
  end.

(** [peek] with a condition (src/bms/parsing/parse.cpp:461-470). *)
Definition peek (p : token_type -> bool) (ts : list lexeme) : bool :=
  match expect p ts with Some _ => true | None => false end.

(** [peek_n(1)] with a condition (src/bms/parsing/parse.cpp:446-458). *)
Definition peek_second (p : token_type -> bool) (ts : list lexeme) : bool :=
  match skip_comments ts with
  | _ :: ts' => peek p ts'
  | [] => false
  end.

(** ** Annotations *)

(** [expected_after_key] (src/bms/parsing/parse.cpp:887-892). *)
Definition expected_values : list token_type :=
  [tk_binary_literal; tk_octal_literal; tk_decimal_literal; tk_hexadecimal_literal; tk_string_literal;
   tk_keyword_true; tk_keyword_false].

(** [match_annotation_argument] (src/bms/parsing/parse.cpp:884-915). *)
Definition match_annotation_argument (ts : list lexeme) : result annotation_argument :=
  let! (key, ts1) :=
    match expect (is tk_identifier) ts with
    | Some (k, ts1) =>
        let! (_, ts2) := demand (is tk_assign) (alone gr_annotation_argument tk_assign) ts1 in matched (snd k) ts2
    | None => matched (str "") ts
    end in
  let! (value, ts2) := demand tk_is_literal
    (gr_annotation_argument,
     match expect (is tk_identifier) ts with Some _ => expected_values | None => tk_identifier :: expected_values end)
    ts1 in
  if is tk_string_literal (fst value) then
    if (2 <=? length (snd value))%nat then
      matched (AA key (firstn (length (snd value) - 2) (skipn 1 (snd value))) (fst value)) ts2
    else Some Abort
  else matched (AA key (snd value) (fst value)) ts2.

(** [match_annotation_argument_sequence] (src/bms/parsing/parse.cpp:866-882). *)
Fixpoint annotation_arguments (fuel : nat) (ts : list lexeme) : result (list annotation_argument) :=
  match fuel with
  | O => None
  | S fuel' =>
      let! (a, ts1) := match_annotation_argument ts in
      match expect (is tk_comma) ts1 with
      | Some (_, ts2) => let! (l, ts3) := annotation_arguments fuel' ts2 in matched (a :: l) ts3
      | None => matched [a] ts1
      end
  end.

(** The lambda of [match_annotation] (src/bms/parsing/parse.cpp:852-861). *)
Definition annotation_argument_list (ts : list lexeme) : result (list annotation_argument) :=
  match expect (is tk_left_parenthesis) ts with
  | None => matched [] ts
  | Some (_, ts1) =>
      match expect (is tk_right_parenthesis) ts1 with
      | Some (_, ts2) => matched [] ts2
      | None =>
          let! (l, ts2) := annotation_arguments (S (length ts1)) ts1 in
          let! (_, ts3) := demand (is tk_right_parenthesis) (alone gr_annotation tk_right_parenthesis) ts2 in
          matched l ts3
      end
  end.

(** [match_annotation] (src/bms/parsing/parse.cpp:840-864).  The result of the lambda is dereferenced
    without a check (863): [Result::operator*] asserts that there is a value
    (src/common/result.hpp). *)
Definition match_annotation (ts : list lexeme) : result parsed_annotation :=
  let! (_, ts1) := demand (is tk_at) (alone gr_annotation tk_at) ts in
  let! (id, ts2) := demand (is tk_identifier) (alone gr_annotation tk_identifier) ts1 in
  match annotation_argument_list ts2 with
  | Some (Ok (args, ts3)) => matched (PAnn (snd id) args) ts3
  | Some (Err _) => Some Abort
  | Some Abort => Some Abort
  | Some UB => Some UB
  | None => None
  end.

(** [match_annotation_sequence] (src/bms/parsing/parse.cpp:820-838). *)
Fixpoint annotation_sequence (fuel : nat) (ts : list lexeme) : result (list parsed_annotation) :=
  match fuel with
  | O => None
  | S fuel' =>
      let! (a, ts1) := match_annotation ts in
      if peek (is tk_at) ts1 then
        let! (l, ts2) := annotation_sequence fuel' ts1 in matched (a :: l) ts2
      else matched [a] ts1
  end.

(** [match_annotation_sequence] (src/bms/parsing/parse.cpp:820-838), with fuel for every token. *)
Definition match_annotation_sequence (ts : list lexeme) : result (list parsed_annotation) :=
  annotation_sequence (S (length ts)) ts.

(** [optionally_match(&Parser::match_annotation_sequence, peek(Token_Type::at))]
    (src/bms/parsing/parse.cpp:516-528,1442-1446). *)
Definition optional_annotations (ts : list lexeme) : result (list parsed_annotation) :=
  if peek (is tk_at) ts then match_annotation_sequence ts else matched [] ts.

(** ** Expressions *)

(** [should_binary_expression_commit_to_comparison_expression] (src/bms/parsing/parse.cpp:1324-1349)
    for a given [parenthesis_level].  The counter is a [Size] that wraps around below zero; it is only
    compared with zero, and there are fewer than 2^64 tokens, so an integer counter behaves alike. *)
Fixpoint commit_to_comparison (level : Z) (ts : list lexeme) : bool :=
  match ts with
  | [] => false
  | (t, _) :: ts' =>
      match t with
      | tk_left_brace | tk_right_brace | tk_semicolon => false
      | tk_left_parenthesis => commit_to_comparison (level + 1) ts'
      | tk_right_parenthesis => commit_to_comparison (level - 1) ts'
      | _ =>
          if negb (level =? 0) then commit_to_comparison level ts'
          else if is tk_keyword_if t then false
          else if tk_is_comparison_operator t then true
          else commit_to_comparison level ts'
      end
  end.

Section Expressions.

(** [match_expression] (src/bms/parsing/parse.cpp:1179), for the tokens that remain inside of an
    expression. *)
Variable expression : list lexeme -> result pexpr.

(** Fuel for the loops inside of an expression (src/bms/parsing/parse.cpp:1430,1223). *)
Variable loop_fuel : nat.

(** [match_parenthesized_expression] (src/bms/parsing/parse.cpp:1476-1491). *)
Definition match_parenthesized (ts : list lexeme) : result pexpr :=
  let! (_, ts1) := demand (is tk_left_parenthesis) (alone gr_parenthesized_expression tk_left_parenthesis) ts in
  let! (e, ts2) := expression ts1 in
  let! (_, ts3) := demand (is tk_right_parenthesis) (alone gr_parenthesized_expression tk_right_parenthesis) ts2 in
  matched e ts3.

(** [match_type] (src/bms/parsing/parse.cpp:1493-1519). *)
Definition match_type (ts : list lexeme) : result ptype :=
  match expect (is tk_keyword_void) ts with
  | Some (_, ts1) => matched (PType tt_Void None) ts1
  | None =>
  match expect (is tk_keyword_bool) ts with
  | Some (_, ts1) => matched (PType tt_Bool None) ts1
  | None =>
  match expect (is tk_keyword_int) ts with
  | Some (_, ts1) => matched (PType tt_Int None) ts1
  | None =>
  match expect (is tk_keyword_uint) ts with
  | Some (_, ts1) =>
      let! (e, ts2) := match_parenthesized ts1 in matched (PType tt_Uint (Some e)) ts2
  | None => fail (gr_type, [tk_keyword_void; tk_keyword_bool; tk_keyword_int; tk_keyword_uint]) ts
  end end end end.

(** [expected] (src/bms/parsing/parse.cpp:1457-1460). *)
Definition expected_primaries : list token_type :=
  [tk_binary_literal; tk_octal_literal; tk_decimal_literal; tk_hexadecimal_literal; tk_identifier;
   tk_left_parenthesis].

(** [match_primary_expression] (src/bms/parsing/parse.cpp:1453-1474). *)
Definition match_primary (ts : list lexeme) : result pexpr :=
  match expect tk_is_literal ts with
  | Some (t, ts1) => matched (PLiteral (snd t) (fst t)) ts1
  | None =>
  match expect (is tk_identifier) ts with
  | Some (t, ts1) => matched (PId (snd t)) ts1
  | None =>
      match match_parenthesized ts with
      | Some (Err e) => Some (Err (PErr gr_primary_expression (pe_rest e) expected_primaries))
      | r => r
      end
  end end.

(** The loop over the arguments of a call (src/bms/parsing/parse.cpp:1430-1440). *)
Fixpoint call_arguments (fuel : nat) (demand_expression : bool) (ts : list lexeme)
  : result (list pexpr) :=
  match fuel with
  | O => None
  | S fuel' =>
      match (if demand_expression then None else expect (is tk_right_parenthesis) ts) with
      | Some (_, ts1) => matched [] ts1
      | None =>
          let! (e, ts1) := expression ts in
          let! (l, ts3) :=
            match expect (is tk_comma) ts1 with
            | Some (_, ts2) => call_arguments fuel' true ts2
            | None => call_arguments fuel' false ts1
            end in
          matched (e :: l) ts3
      end
  end.

(** [match_function_call_expression] (src/bms/parsing/parse.cpp:1418-1451). *)
Definition match_call (ts : list lexeme) : result pexpr :=
  let! (id, ts1) := demand (is tk_identifier) (alone gr_function_call_expression tk_identifier) ts in
  let! (_, ts2) := demand (is tk_left_parenthesis) (alone gr_function_call_expression tk_left_parenthesis) ts1 in
  let! (args, ts3) := call_arguments loop_fuel false ts2 in
  let! (annotations, ts4) := optional_annotations ts3 in
  matched (PCall (snd id) args annotations false) ts4.

(** [match_postfix_expression] (src/bms/parsing/parse.cpp:1407-1416). *)
Definition match_postfix (ts : list lexeme) : result pexpr :=
  if peek (is tk_identifier) ts && peek_second (is tk_left_parenthesis) ts
  then match_call ts
  else match_primary ts.

(** [match_prefix_expression] (src/bms/parsing/parse.cpp:1394-1405). *)
Definition match_prefix (ts : list lexeme) : result pexpr :=
  match expect tk_is_unary_operator ts with
  | Some (t, ts1) => let! (e, ts2) := match_postfix ts1 in matched (PPrefix (fst t) e) ts2
  | None => match_postfix ts
  end.

(** [match_arithmetic_expression] (src/bms/parsing/parse.cpp:1375-1392). *)
Definition match_arithmetic (ts : list lexeme) : result pexpr :=
  let! (a, ts1) := match_prefix ts in
  match expect tk_is_arithmetic_operator ts1 with
  | None => matched a ts1
  | Some (op, ts2) => let! (b, ts3) := match_prefix ts2 in matched (PBinary (fst op) a b) ts3
  end.

(** [expected] (src/bms/parsing/parse.cpp:1354-1356). *)
Definition expected_comparisons : list token_type :=
  [tk_equals; tk_not_equals; tk_less_than; tk_greater_than; tk_less_or_equal; tk_greater_or_equal].

(** [match_comparison_expression] (src/bms/parsing/parse.cpp:1351-1373). *)
Definition match_comparison (ts : list lexeme) : result pexpr :=
  let! (a, ts1) := match_arithmetic ts in
  let! (op, ts2) := demand tk_is_comparison_operator (gr_comparison_expression, expected_comparisons) ts1 in
  let! (b, ts3) := match_arithmetic ts2 in
  matched (PBinary (fst op) a b) ts3.

(** [match_binary_expression] (src/bms/parsing/parse.cpp:1232-1254). *)
Definition match_binary (ts : list lexeme) : result pexpr :=
  if commit_to_comparison 0 ts then match_comparison ts
  else
    let! (a, ts1) := match_prefix ts in
    match expect tk_is_binary_operator ts1 with
    | None => matched a ts1
    | Some (op, ts2) => let! (b, ts3) := match_prefix ts2 in matched (PBinary (fst op) a b) ts3
    end.

(** [match_if_expression] (src/bms/parsing/parse.cpp:1209-1230). *)
Fixpoint match_if (fuel : nat) (ts : list lexeme) : result pexpr :=
  match fuel with
  | O => None
  | S fuel' =>
      let! (a, ts1) := match_binary ts in
      match expect (is tk_keyword_if) ts1 with
      | None => matched a ts1
      | Some (_, ts2) =>
          let! (c, ts3) := match_binary ts2 in
          let! (_, ts4) := demand (is tk_keyword_else) (alone gr_if_expression tk_keyword_else) ts3 in
          let! (b, ts5) := match_if fuel' ts4 in
          matched (PIf a c b) ts5
      end
  end.

(** [match_conversion_expression] (src/bms/parsing/parse.cpp:1190-1207). *)
Definition match_conversion (ts : list lexeme) : result pexpr :=
  let! (e, ts1) := match_prefix ts in
  let! (_, ts2) := demand (is tk_keyword_as) (alone gr_conversion_expression tk_keyword_as) ts1 in
  let! (t, ts3) := match_type ts2 in
  matched (PConversion e t) ts3.

(** The attempt of [match_expression] (src/bms/parsing/parse.cpp:1181-1184).  The attempt is rolled back
    (502-508), which leaves the position as it was; so only the answer is kept. *)
Definition is_conversion (ts : list lexeme) : option (outcome parse_error bool) :=
  match match_prefix ts with
  | None => None
  | Some (Ok (_, ts1)) => Some (Ok (peek (is tk_keyword_as) ts1))
  | Some (Err _) => Some (Ok false)
  | Some Abort => Some Abort
  | Some UB => Some UB
  end.

End Expressions.

(** [match_expression] (src/bms/parsing/parse.cpp:1179-1188). *)
Fixpoint expression (fuel : nat) (ts : list lexeme) : result pexpr :=
  match fuel with
  | O => None
  | S fuel' =>
      let! conversion := is_conversion (expression fuel') fuel' ts in
      if conversion then match_conversion (expression fuel') fuel' ts
      else match_if (expression fuel') fuel' fuel ts
  end.

(** [match_expression] (src/bms/parsing/parse.cpp:1179-1188), with fuel for every token. *)
Definition match_expression (ts : list lexeme) : result pexpr := expression (S (length ts)) ts.

(** ** Statements *)

(** [: type], which is optional (src/bms/parsing/parse.cpp:623-632,664-673). *)
Definition optional_type (ts : list lexeme) : result (option ptype) :=
  match expect (is tk_colon) ts with
  | Some (_, ts1) => let! (t, ts2) := match_type match_expression ts1 in matched (Some t) ts2
  | None => matched None ts
  end.

(** [match_initializer] (src/bms/parsing/parse.cpp:685-692). *)
Definition match_initializer (ts : list lexeme) : result pexpr :=
  let! (_, ts1) := demand (is tk_assign) (alone gr_initializer tk_assign) ts in match_expression ts1.

(** [match_let_declaration] (src/bms/parsing/parse.cpp:609-648). *)
Definition match_let (annotations : list parsed_annotation) (ts : list lexeme) : result pstmt :=
  let! (_, ts1) := demand (is tk_keyword_let) (alone gr_let_declaration tk_keyword_let) ts in
  let! (id, ts2) := demand (is tk_identifier) (alone gr_let_declaration tk_identifier) ts1 in
  let! (type, ts3) := optional_type ts2 in
  let! (init, ts4) :=
    if (match type with None => true | Some _ => false end) || peek (is tk_assign) ts3
    then let! (e, ts4) := match_initializer ts3 in matched (Some e) ts4
    else matched None ts3 in
  let! (_, ts5) := demand (is tk_semicolon) (alone gr_let_declaration tk_semicolon) ts4 in
  matched (PLet (snd id) annotations type init) ts5.

(** [match_const_declaration] (src/bms/parsing/parse.cpp:650-683). *)
Definition match_const (annotations : list parsed_annotation) (ts : list lexeme) : result pstmt :=
  let! (_, ts1) := demand (is tk_keyword_const) (alone gr_const_declaration tk_keyword_const) ts in
  let! (id, ts2) := demand (is tk_identifier) (alone gr_const_declaration tk_identifier) ts1 in
  let! (type, ts3) := optional_type ts2 in
  let! (init, ts4) := match_initializer ts3 in
  let! (_, ts5) := demand (is tk_semicolon) (alone gr_const_declaration tk_semicolon) ts4 in
  matched (PConst (snd id) annotations type init) ts5.

(** [match_static_assertion] (src/bms/parsing/parse.cpp:792-808). *)
Definition match_static_assertion (ts : list lexeme) : result pstmt :=
  let! (_, ts1) := demand (is tk_keyword_static_assert) (alone gr_static_assertion tk_keyword_static_assert) ts in
  let! (e, ts2) := match_parenthesized match_expression ts1 in
  let! (_, ts3) := demand (is tk_semicolon) (alone gr_static_assertion tk_semicolon) ts2 in
  matched (PStatic_Assert e) ts3.

(** [match_assignment] (src/bms/parsing/parse.cpp:1028-1046). *)
Definition match_assignment (annotations : list parsed_annotation) (ts : list lexeme) : result pstmt :=
  let! (id, ts1) := demand (is tk_identifier) (alone gr_assignment tk_identifier) ts in
  let! (_, ts2) := demand (is tk_assign) (alone gr_assignment tk_assign) ts1 in
  let! (e, ts3) := match_expression ts2 in
  matched (PAssignment (snd id) annotations e) ts3.

(** [match_assignment_statement] (src/bms/parsing/parse.cpp:1002-1013). *)
Definition match_assignment_statement (annotations : list parsed_annotation) (ts : list lexeme)
  : result pstmt :=
  let! (a, ts1) := match_assignment annotations ts in
  let! (_, ts2) := demand (is tk_semicolon) (alone gr_assignment_statement tk_semicolon) ts1 in
  matched a ts2.

(** [is_statement = true] (src/bms/parsing/parse.cpp:975-977); [get] on another alternative asserts. *)
Definition mark_statement (e : pexpr) : outcome parse_error pstmt :=
  match e with
  | PCall name args annotations _ => Ok (PExpr (PCall name args annotations true))
  | _ => Abort
  end.

(** [match_function_call_statement] (src/bms/parsing/parse.cpp:1015-1026), and what
    [match_assignment_or_function_call_statement] does with its result (974-978). *)
Definition match_function_call_statement (ts : list lexeme) : result pstmt :=
  let! (c, ts1) := match_call match_expression (S (length ts)) ts in
  let! (_, ts2) := demand (is tk_semicolon) (alone gr_function_call_statement tk_semicolon) ts1 in
  let! s := Some (mark_statement c) in
  matched s ts2.

(** [match_assignment_or_function_call_statement] (src/bms/parsing/parse.cpp:963-979). *)
Definition match_assignment_or_call (ts : list lexeme) : result pstmt :=
  if peek (is tk_identifier) ts then
    if peek_second (is tk_assign) ts then match_assignment_statement [] ts
    else match_function_call_statement ts
  else fail (alone gr_statement tk_identifier) ts.

(** [match_return_statement] (src/bms/parsing/parse.cpp:1048-1067). *)
Definition match_return (ts : list lexeme) : result pstmt :=
  let! (_, ts1) := demand (is tk_keyword_return) (alone gr_return_statement tk_keyword_return) ts in
  match expect (is tk_semicolon) ts1 with
  | Some (_, ts2) => matched (PReturn None) ts2
  | None =>
      let! (e, ts2) := match_expression ts1 in
      let! (_, ts3) := demand (is tk_semicolon) (alone gr_return_statement tk_semicolon) ts2 in
      matched (PReturn (Some e)) ts3
  end.

(** [match_break_statement] (src/bms/parsing/parse.cpp:1069-1080). *)
Definition match_break (ts : list lexeme) : result pstmt :=
  let! (_, ts1) := demand (is tk_keyword_break) (alone gr_break_statement tk_keyword_break) ts in
  let! (_, ts2) := demand (is tk_semicolon) (alone gr_break_statement tk_semicolon) ts1 in
  matched PBreak ts2.

(** [match_continue_statement] (src/bms/parsing/parse.cpp:1082-1093). *)
Definition match_continue (ts : list lexeme) : result pstmt :=
  let! (_, ts1) := demand (is tk_keyword_continue) (alone gr_continue_statement tk_keyword_continue) ts in
  let! (_, ts2) := demand (is tk_semicolon) (alone gr_continue_statement tk_semicolon) ts1 in
  matched PContinue ts2.

Section Statements.

(** [match_statement] (src/bms/parsing/parse.cpp:917), for the tokens inside of a block. *)
Variable statement : list lexeme -> result pstmt.

(** The loop of [match_block_statement] (src/bms/parsing/parse.cpp:1164-1175). *)
Fixpoint block_statements (fuel : nat) (ts : list lexeme) : result (list pstmt) :=
  match fuel with
  | O => None
  | S fuel' =>
      match expect (is tk_right_brace) ts with
      | Some (_, ts1) => matched [] ts1
      | None =>
          let! (s, ts1) := statement ts in
          let! (l, ts2) := block_statements fuel' ts1 in
          matched (s :: l) ts2
      end
  end.

(** [match_block_statement] (src/bms/parsing/parse.cpp:1156-1177). *)
Definition match_block (fuel : nat) (ts : list lexeme) : result (list pstmt) :=
  let! (_, ts1) := demand (is tk_left_brace) (alone gr_block_statement tk_left_brace) ts in
  block_statements fuel ts1.

(** [match_if_statement] with [match_else_statement] (src/bms/parsing/parse.cpp:1095-1133). *)
Fixpoint match_if_statement (fuel : nat) (annotations : list parsed_annotation) (ts : list lexeme)
  : result pstmt :=
  match fuel with
  | O => None
  | S fuel' =>
      let! (_, ts1) := demand (is tk_keyword_if) (alone gr_if_statement tk_keyword_if) ts in
      let! (c, ts2) := match_expression ts1 in
      let! (b, ts3) := match_block fuel' ts2 in
      match expect (is tk_keyword_else) ts3 with
      | None => matched (PIf_Statement annotations c b None) ts3
      | Some (_, ts4) =>
          let! (e, ts5) :=
            if peek (is tk_keyword_if) ts4 then match_if_statement fuel' [] ts4
            else let! (l, ts5) := match_block fuel' ts4 in matched (PBlock l) ts5 in
          matched (PIf_Statement annotations c b (Some e)) ts5
      end
  end.

(** [match_while_statement] (src/bms/parsing/parse.cpp:1135-1154). *)
Definition match_while (fuel : nat) (annotations : list parsed_annotation) (ts : list lexeme)
  : result pstmt :=
  let! (_, ts1) := demand (is tk_keyword_while) (alone gr_while_statement tk_keyword_while) ts in
  let! (c, ts2) := match_expression ts1 in
  let! (b, ts3) := match_block fuel ts2 in
  matched (PWhile annotations c b) ts3.

(** [match_annotated_statement] (src/bms/parsing/parse.cpp:981-1000). *)
Definition match_annotated_statement (fuel : nat) (annotations : list parsed_annotation)
  (ts : list lexeme) : result pstmt :=
  match skip_comments ts with
  | (tk_keyword_const, _) :: _ => match_const annotations ts
  | (tk_keyword_let, _) :: _ => match_let annotations ts
  | (tk_keyword_if, _) :: _ => match_if_statement fuel annotations ts
  | (tk_keyword_while, _) :: _ => match_while fuel annotations ts
  | (tk_identifier, _) :: _ => match_assignment_statement annotations ts
  | _ => fail (gr_statement, [tk_keyword_let; tk_keyword_const; tk_keyword_if; tk_keyword_while; tk_identifier]) ts
  end.

(** [possible_types], the first tokens of statements (src/bms/parsing/parse.cpp:921-931). *)
Definition expected_statements : list token_type :=
  [tk_keyword_let; tk_keyword_const; tk_keyword_static_assert; tk_keyword_break; tk_keyword_continue;
   tk_keyword_return; tk_keyword_if; tk_keyword_while; tk_left_brace; tk_at; tk_identifier].

(** The rest of [match_statement] (src/bms/parsing/parse.cpp:933-960). *)
Definition statement_step (fuel : nat) (ts : list lexeme) : result pstmt :=
  match skip_comments ts with
  | (tk_at, _) :: _ =>
      let! (annotations, ts1) := match_annotation_sequence ts in
      match_annotated_statement fuel annotations ts1
  | (tk_keyword_let, _) :: _ => match_let [] ts
  | (tk_keyword_const, _) :: _ => match_const [] ts
  | (tk_keyword_static_assert, _) :: _ => match_static_assertion ts
  | (tk_keyword_break, _) :: _ => match_break ts
  | (tk_keyword_continue, _) :: _ => match_continue ts
  | (tk_keyword_return, _) :: _ => match_return ts
  | (tk_keyword_if, _) :: _ => match_if_statement fuel [] ts
  | (tk_keyword_while, _) :: _ => match_while fuel [] ts
  | (tk_left_brace, _) :: _ => let! (l, ts1) := match_block fuel ts in matched (PBlock l) ts1
  | (tk_identifier, _) :: _ => match_assignment_or_call ts
  | _ => fail (gr_statement, expected_statements) ts
  end.

End Statements.

(** [match_statement] (src/bms/parsing/parse.cpp:917-961). *)
Fixpoint statement (fuel : nat) (ts : list lexeme) : result pstmt :=
  match fuel with
  | O => None
  | S fuel' => statement_step (statement fuel') fuel ts
  end.

(** [match_statement] (src/bms/parsing/parse.cpp:917-961), with fuel for every token. *)
Definition match_statement (ts : list lexeme) : result pstmt := statement (S (length ts)) ts.

(** ** Declarations *)

(** [match_parameter] (src/bms/parsing/parse.cpp:774-790). *)
Definition match_parameter (ts : list lexeme) : result pparameter :=
  let! (id, ts1) := demand (is tk_identifier) (alone gr_parameter tk_identifier) ts in
  let! (_, ts2) := demand (is tk_colon) (alone gr_parameter tk_colon) ts1 in
  let! (t, ts3) := match_type match_expression ts2 in
  matched (PParam (snd id) t) ts3.

(** [match_parameter_sequence] (src/bms/parsing/parse.cpp:754-772). *)
Fixpoint parameter_sequence (fuel : nat) (ts : list lexeme) : result (list pparameter) :=
  match fuel with
  | O => None
  | S fuel' =>
      let! (p, ts1) := match_parameter ts in
      match expect (is tk_comma) ts1 with
      | Some (_, ts2) => let! (l, ts3) := parameter_sequence fuel' ts2 in matched (p :: l) ts3
      | None => matched [p] ts1
      end
  end.

(** [match_requires_clause] where there is one (src/bms/parsing/parse.cpp:734-743,810-818). *)
Definition optional_requires (ts : list lexeme) : result (option pexpr) :=
  match expect (is tk_keyword_requires) ts with
  | Some (_, ts1) => let! (e, ts2) := match_expression ts1 in matched (Some e) ts2
  | None => matched None ts
  end.

(** [match_function_declaration] (src/bms/parsing/parse.cpp:694-752). *)
Definition match_function (annotations : list parsed_annotation) (ts : list lexeme)
  : result pfunction :=
  let! (_, ts1) := demand (is tk_keyword_function) (alone gr_function_declaration tk_keyword_function) ts in
  let! (name, ts2) := demand (is tk_identifier) (alone gr_function_declaration tk_identifier) ts1 in
  let! (_, ts3) := demand (is tk_left_parenthesis) (alone gr_function_declaration tk_left_parenthesis) ts2 in
  let! (parameters, ts4) :=
    if peek (is tk_right_parenthesis) ts3 then matched [] ts3
    else parameter_sequence (S (length ts3)) ts3 in
  let! (_, ts5) := demand (is tk_right_parenthesis) (alone gr_function_declaration tk_right_parenthesis) ts4 in
  let! (_, ts6) := demand (is tk_right_arrow) (alone gr_function_declaration tk_right_arrow) ts5 in
  let! (ret, ts7) := match_type match_expression ts6 in
  let! (req, ts8) := optional_requires ts7 in
  let! (body, ts9) := match_block match_statement (S (length ts8)) ts8 in
  matched (PFunc (snd name) annotations parameters ret req body) ts9.

(** A function as a declaration (src/bms/parsing/parse.cpp:586,604). *)
Definition function_declaration (annotations : list parsed_annotation) (ts : list lexeme)
  : result pdecl :=
  let! (f, ts1) := match_function annotations ts in matched (PD_Function f) ts1.

(** A constant as a declaration (src/bms/parsing/parse.cpp:585,601). *)
Definition const_declaration (annotations : list parsed_annotation) (ts : list lexeme) : result pdecl :=
  let! (s, ts1) := match_const annotations ts in matched (PD_Statement s) ts1.

(** [match_program_declaration] with [match_annotated_program_declaration]
    (src/bms/parsing/parse.cpp:564-607). *)
Definition match_program_declaration (ts : list lexeme) : result pdecl :=
  match skip_comments ts with
  | (tk_at, _) :: _ =>
      let! (annotations, ts1) := match_annotation_sequence ts in
      if peek (is tk_keyword_const) ts1 then const_declaration annotations ts1
      else if peek (is tk_keyword_function) ts1 then function_declaration annotations ts1
      else fail (gr_program_declaration, [tk_keyword_const; tk_keyword_function]) ts1
  | (tk_keyword_const, _) :: _ => const_declaration [] ts
  | (tk_keyword_function, _) :: _ => function_declaration [] ts
  | (tk_keyword_static_assert, _) :: _ =>
      let! (s, ts1) := match_static_assertion ts in matched (PD_Statement s) ts1
  | _ =>
      fail (gr_program_declaration, [tk_keyword_const; tk_keyword_function; tk_keyword_static_assert; tk_at]) ts
  end.

(** [match_program] (src/bms/parsing/parse.cpp:544-562); the first declaration is demanded, [eof] ends
    the loop (411-415,553). *)
Fixpoint program_declarations (fuel : nat) (ts : list lexeme) : result (list pdecl) :=
  match fuel with
  | O => None
  | S fuel' =>
      let! (d, ts1) := match_program_declaration ts in
      match skip_comments ts1 with
      | [] => matched [d] ts1
      | _ => let! (l, ts2) := program_declarations fuel' ts1 in matched (d :: l) ts2
      end
  end.

(** [Parser::operator()] (src/bms/parsing/parse.cpp:395-406). *)
Definition parse (ts : list lexeme) : option (outcome parse_error (list pdecl)) :=
  let! (p, _) := program_declarations (S (length ts)) ts in Some (Ok p).

(** The tokens of a program with their texts: [Parsed_Program::extract]
    (src/bms/parsing/parse.cpp:97-100) for every token. *)
Definition lexemes (source : text) (tokens : list token) : list lexeme :=
  map (fun t => (tok_type t, firstn (tok_length t) (skipn (begin (tok_pos t)) source))) tokens.
