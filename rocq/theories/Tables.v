(** Token and operator tables.  Models src/bms/tokenization/token_type.hpp, the tables of
    src/bms/util.cpp, the operator tables of src/bms/ast.cpp and the precedence order of
    src/bms/expression_type.hpp. *)
From Coq Require Import ZArith Ascii String List Bool.
From Verif Require Import Prelude Types Text.
Import ListNotations.
Open Scope string_scope.
Open Scope list_scope.
Open Scope Z_scope.

(** [Token_Type] (src/bms/tokenization/token_type.hpp:11-128). *)
Inductive token_type : Type :=
| tk_identifier
| tk_left_parenthesis
| tk_right_parenthesis
| tk_decimal_literal
| tk_octal_literal
| tk_hexadecimal_literal
| tk_binary_literal
| tk_string_literal
| tk_left_brace
| tk_right_brace
| tk_block_comment
| tk_line_comment
| tk_assign
| tk_equals
| tk_not_equals
| tk_plus
| tk_minus
| tk_multiplication
| tk_division
| tk_remainder
| tk_less_than
| tk_greater_than
| tk_less_or_equal
| tk_greater_or_equal
| tk_shift_left
| tk_shift_right
| tk_bitwise_and
| tk_bitwise_or
| tk_bitwise_not
| tk_bitwise_xor
| tk_logical_and
| tk_logical_or
| tk_logical_not
| tk_right_arrow
| tk_double_right_arrow
| tk_dot
| tk_colon
| tk_comma
| tk_at
| tk_semicolon
| tk_keyword_as
| tk_keyword_let
| tk_keyword_const
| tk_keyword_function
| tk_keyword_while
| tk_keyword_if
| tk_keyword_else
| tk_keyword_uint
| tk_keyword_int
| tk_keyword_bool
| tk_keyword_void
| tk_keyword_requires
| tk_keyword_return
| tk_keyword_break
| tk_keyword_continue
| tk_keyword_true
| tk_keyword_false
| tk_keyword_static_assert.

(** Position of an enumerator in [Token_Type] (src/bms/tokenization/token_type.hpp:11-128), used for
    comparing token types. *)
Definition token_type_index (t : token_type) : Z :=
  match t with
  | tk_identifier => 0
  | tk_left_parenthesis => 1
  | tk_right_parenthesis => 2
  | tk_decimal_literal => 3
  | tk_octal_literal => 4
  | tk_hexadecimal_literal => 5
  | tk_binary_literal => 6
  | tk_string_literal => 7
  | tk_left_brace => 8
  | tk_right_brace => 9
  | tk_block_comment => 10
  | tk_line_comment => 11
  | tk_assign => 12
  | tk_equals => 13
  | tk_not_equals => 14
  | tk_plus => 15
  | tk_minus => 16
  | tk_multiplication => 17
  | tk_division => 18
  | tk_remainder => 19
  | tk_less_than => 20
  | tk_greater_than => 21
  | tk_less_or_equal => 22
  | tk_greater_or_equal => 23
  | tk_shift_left => 24
  | tk_shift_right => 25
  | tk_bitwise_and => 26
  | tk_bitwise_or => 27
  | tk_bitwise_not => 28
  | tk_bitwise_xor => 29
  | tk_logical_and => 30
  | tk_logical_or => 31
  | tk_logical_not => 32
  | tk_right_arrow => 33
  | tk_double_right_arrow => 34
  | tk_dot => 35
  | tk_colon => 36
  | tk_comma => 37
  | tk_at => 38
  | tk_semicolon => 39
  | tk_keyword_as => 40
  | tk_keyword_let => 41
  | tk_keyword_const => 42
  | tk_keyword_function => 43
  | tk_keyword_while => 44
  | tk_keyword_if => 45
  | tk_keyword_else => 46
  | tk_keyword_uint => 47
  | tk_keyword_int => 48
  | tk_keyword_bool => 49
  | tk_keyword_void => 50
  | tk_keyword_requires => 51
  | tk_keyword_return => 52
  | tk_keyword_break => 53
  | tk_keyword_continue => 54
  | tk_keyword_true => 55
  | tk_keyword_false => 56
  | tk_keyword_static_assert => 57
  end.

(** [==] on token types. *)
Definition token_type_eqb (a b : token_type) : bool := token_type_index a =? token_type_index b.

(** [token_type_code_name] (src/bms/util.cpp:143-199). *)
Definition token_type_code_name (t : token_type) : text :=
  match t with
  | tk_left_brace => "{"
  | tk_right_brace => "}"
  | tk_block_comment => "/*"
  | tk_line_comment => "//"
  | tk_assign => "="
  | tk_equals => "=="
  | tk_not_equals => "!="
  | tk_plus => "+"
  | tk_minus => "-"
  | tk_multiplication => "*"
  | tk_division => "/"
  | tk_remainder => "%"
  | tk_less_than => "<"
  | tk_greater_than => ">"
  | tk_less_or_equal => "<="
  | tk_greater_or_equal => ">="
  | tk_shift_left => "<<"
  | tk_shift_right => ">>"
  | tk_bitwise_and => "&"
  | tk_bitwise_or => "|"
  | tk_bitwise_not => "~"
  | tk_bitwise_xor => "^"
  | tk_logical_and => "&&"
  | tk_logical_or => "||"
  | tk_logical_not => "!"
  | tk_right_arrow => "->"
  | tk_double_right_arrow => "=>"
  | tk_dot => "."
  | tk_colon => ":"
  | tk_comma => ","
  | tk_semicolon => ";"
  | tk_keyword_as => "as"
  | tk_keyword_let => "let"
  | tk_keyword_const => "const"
  | tk_keyword_function => "function"
  | tk_keyword_while => "while"
  | tk_keyword_if => "if"
  | tk_keyword_else => "else"
  | tk_keyword_uint => "Uint"
  | tk_keyword_int => "Int"
  | tk_keyword_bool => "Bool"
  | tk_keyword_void => "Void"
  | tk_keyword_requires => "requires"
  | tk_keyword_return => "return"
  | tk_keyword_break => "break"
  | tk_keyword_continue => "continue"
  | tk_keyword_true => "true"
  | tk_keyword_false => "false"
  | tk_keyword_static_assert => "static_assert"
  | _ => ""
  end.

(** [token_type_length] (src/bms/util.cpp:201-274). *)
Definition token_type_length (t : token_type) : nat :=
  match t with
  | tk_identifier | tk_decimal_literal | tk_octal_literal | tk_hexadecimal_literal | tk_binary_literal | tk_string_literal | tk_block_comment | tk_line_comment => 0%nat
  | tk_left_parenthesis | tk_right_parenthesis | tk_left_brace | tk_right_brace | tk_assign | tk_plus | tk_minus | tk_multiplication | tk_division | tk_remainder | tk_less_than | tk_greater_than | tk_bitwise_and | tk_bitwise_or | tk_bitwise_not | tk_bitwise_xor | tk_dot | tk_colon | tk_comma | tk_at | tk_semicolon => 1%nat
  | tk_equals | tk_not_equals | tk_less_or_equal | tk_greater_or_equal | tk_shift_left | tk_shift_right | tk_logical_or | tk_right_arrow | tk_double_right_arrow | tk_keyword_as | tk_keyword_if => 2%nat
  | tk_logical_and | tk_logical_not | tk_keyword_let | tk_keyword_int => 3%nat
  | tk_keyword_else | tk_keyword_uint | tk_keyword_bool | tk_keyword_void | tk_keyword_true => 4%nat
  | tk_keyword_const | tk_keyword_while | tk_keyword_break | tk_keyword_false => 5%nat
  | tk_keyword_return => 6%nat
  | tk_keyword_function | tk_keyword_requires | tk_keyword_continue => 8%nat
  | tk_keyword_static_assert => 13%nat
  end.

(** [is_comment] (src/bms/util.cpp:276-279). *)
Definition tk_is_comment (t : token_type) : bool :=
  match t with
  | tk_line_comment | tk_block_comment => true
  | _ => false
  end.

(** [is_integer_literal] (src/bms/util.cpp:281-291). *)
Definition tk_is_integer_literal (t : token_type) : bool :=
  match t with
  | tk_binary_literal | tk_octal_literal | tk_decimal_literal | tk_hexadecimal_literal => true
  | _ => false
  end.

(** [is_literal] (src/bms/util.cpp:293-306). *)
Definition tk_is_literal (t : token_type) : bool :=
  match t with
  | tk_binary_literal | tk_octal_literal | tk_decimal_literal | tk_hexadecimal_literal | tk_keyword_true | tk_keyword_false | tk_string_literal => true
  | _ => false
  end.

(** [is_unary_operator] (src/bms/util.cpp:308-318). *)
Definition tk_is_unary_operator (t : token_type) : bool :=
  match t with
  | tk_plus | tk_minus | tk_logical_not | tk_bitwise_not => true
  | _ => false
  end.

(** [is_arithmetic_operator] (src/bms/util.cpp:320-331). *)
Definition tk_is_arithmetic_operator (t : token_type) : bool :=
  match t with
  | tk_plus | tk_minus | tk_multiplication | tk_division | tk_remainder => true
  | _ => false
  end.

(** [is_bitwise_operator] (src/bms/util.cpp:333-345). *)
Definition tk_is_bitwise_operator (t : token_type) : bool :=
  match t with
  | tk_bitwise_and | tk_bitwise_or | tk_bitwise_not | tk_bitwise_xor | tk_shift_left | tk_shift_right => true
  | _ => false
  end.

(** [is_comparison_operator] (src/bms/util.cpp:347-359). *)
Definition tk_is_comparison_operator (t : token_type) : bool :=
  match t with
  | tk_equals | tk_not_equals | tk_less_than | tk_greater_than | tk_less_or_equal | tk_greater_or_equal => true
  | _ => false
  end.

(** [is_logical_operator] (src/bms/util.cpp:361-370). *)
Definition tk_is_logical_operator (t : token_type) : bool :=
  match t with
  | tk_logical_not | tk_logical_and | tk_logical_or => true
  | _ => false
  end.

(** [is_relational_comparison_operator] (src/bms/util.cpp:372-382). *)
Definition tk_is_relational_comparison_operator (t : token_type) : bool :=
  match t with
  | tk_less_than | tk_greater_than | tk_less_or_equal | tk_greater_or_equal => true
  | _ => false
  end.

(** [is_binary_operator] (src/bms/util.cpp:384-408). *)
Definition tk_is_binary_operator (t : token_type) : bool :=
  match t with
  | tk_plus | tk_minus | tk_multiplication | tk_division | tk_remainder | tk_equals | tk_not_equals | tk_less_than | tk_greater_than | tk_less_or_equal | tk_greater_or_equal | tk_logical_and | tk_logical_or | tk_shift_left | tk_shift_right | tk_bitwise_and | tk_bitwise_or | tk_bitwise_xor => true
  | _ => false
  end.

(** [expression_type_token] (src/bms/util.cpp:410-444). *)
Definition expression_type_token (k : expr_kind) : token_type :=
  match k with
  | if_expression => tk_keyword_if
  | conversion => tk_keyword_as
  | logical_and => tk_logical_and
  | logical_or => tk_logical_or
  | equals => tk_equals
  | not_equals => tk_not_equals
  | less_than => tk_less_than
  | greater_than => tk_greater_than
  | less_or_equal => tk_less_or_equal
  | greater_or_equal => tk_greater_or_equal
  | binary_plus => tk_plus
  | binary_minus => tk_minus
  | multiplication => tk_multiplication
  | division => tk_division
  | remainder => tk_remainder
  | shift_left => tk_shift_left
  | shift_right => tk_shift_right
  | bitwise_and => tk_bitwise_and
  | bitwise_or => tk_bitwise_or
  | bitwise_xor => tk_bitwise_xor
  | unary_plus => tk_plus
  | unary_minus => tk_minus
  | logical_not => tk_logical_not
  | bitwise_not => tk_bitwise_not
  | function_call => tk_keyword_function
  | literal => tk_remainder
  | id_expr => tk_remainder
  end.

(** [expression_type_code_name] (src/bms/util.cpp:446-449). *)
Definition expression_type_code_name (k : expr_kind) : text :=
  token_type_code_name (expression_type_token k).

(** [binary_expression_type_of_token] (src/bms/ast.cpp:17-40). *)
Definition binary_expression_type_of_token {E} (t : token_type) : outcome E expr_kind :=
  match t with
  | tk_logical_and => Ok logical_and
  | tk_logical_or => Ok logical_or
  | tk_equals => Ok equals
  | tk_not_equals => Ok not_equals
  | tk_less_than => Ok less_than
  | tk_greater_than => Ok greater_than
  | tk_less_or_equal => Ok less_or_equal
  | tk_plus => Ok binary_plus
  | tk_minus => Ok binary_minus
  | tk_multiplication => Ok multiplication
  | tk_division => Ok division
  | tk_remainder => Ok remainder
  | tk_shift_left => Ok shift_left
  | tk_shift_right => Ok shift_right
  | tk_bitwise_and => Ok bitwise_and
  | tk_bitwise_or => Ok bitwise_or
  | tk_bitwise_xor => Ok bitwise_xor
  | _ => Abort
  end.

(** [unary_expression_type_of_token] (src/bms/ast.cpp:42-52). *)
Definition unary_expression_type_of_token {E} (t : token_type) : outcome E expr_kind :=
  match t with
  | tk_plus => Ok unary_plus
  | tk_minus => Ok unary_minus
  | tk_logical_not => Ok logical_not
  | tk_bitwise_not => Ok bitwise_not
  | _ => Abort
  end.

(** [Precedence_Group] (src/bms/expression_type.hpp:155-164). *)
Inductive precedence_group : Type :=
| pg_conversion_and_if
| pg_binary_logical
| pg_binary_comparison
| pg_binary_arithmetic
| pg_binary_bitwise
| pg_prefix_unary
| pg_postfix_unary
| pg_primary.

(** Underlying value of a group (src/bms/expression_type.hpp:155-164). *)
Definition pg_index (g : precedence_group) : Z :=
  match g with
  | pg_conversion_and_if => 0 | pg_binary_logical => 1 | pg_binary_comparison => 2
  | pg_binary_arithmetic => 3 | pg_binary_bitwise => 4 | pg_prefix_unary => 5
  | pg_postfix_unary => 6 | pg_primary => 7
  end.

(** [is_binary(Precedence_Group)] (src/bms/expression_type.hpp:166-176). *)
Definition pg_is_binary (g : precedence_group) : bool :=
  match g with
  | pg_binary_logical | pg_binary_comparison | pg_binary_arithmetic | pg_binary_bitwise => true
  | _ => false
  end.

(** [std::partial_ordering] (used at src/bms/expression_type.hpp:178). *)
Inductive partial_ordering : Type := po_less | po_equivalent | po_greater | po_unordered.

(** [operator<=>] on groups (src/bms/expression_type.hpp:178-196). *)
Definition pg_compare (x y : precedence_group) : partial_ordering :=
  if pg_index x =? pg_index y then po_unordered
  else if pg_is_binary x && pg_is_binary y then
    match x, y with
    | pg_binary_comparison, pg_binary_arithmetic => po_less
    | pg_binary_arithmetic, pg_binary_comparison => po_greater
    | _, _ => po_unordered
    end
  else match Z.compare (pg_index x) (pg_index y) with
       | Eq => po_unordered
       | Lt => po_less
       | Gt => po_greater
       end.

(** [precedence_group_of] (src/bms/expression_type.hpp:198-237). *)
Definition precedence_group_of (k : expr_kind) : precedence_group :=
  match k with
  | conversion | if_expression => pg_conversion_and_if
  | equals | not_equals | less_than | greater_than | less_or_equal | greater_or_equal =>
      pg_binary_comparison
  | binary_plus | binary_minus | multiplication | division | remainder => pg_binary_arithmetic
  | shift_left | shift_right | bitwise_and | bitwise_or | bitwise_xor | logical_and | logical_or =>
      pg_binary_bitwise
  | unary_plus | unary_minus | logical_not | bitwise_not => pg_prefix_unary
  | function_call => pg_postfix_unary
  | literal | id_expr => pg_primary
  end.

(** [compare_precedence] (src/bms/expression_type.hpp:252-255). *)
Definition compare_precedence (x y : expr_kind) : partial_ordering :=
  pg_compare (precedence_group_of x) (precedence_group_of y).
