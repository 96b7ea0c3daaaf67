(** Code in HTML. Models src/bmd/html/bms_to_html.cpp and src/bmd/codegen/code_span_type.hpp.

    Simplifications: of a [Bms_Error] only its alternative is kept; the tree that the parser yields is
    dropped, as it is in the code. *)
From Coq Require Import ZArith Ascii String List Bool.
From Verif Require Import Prelude Text Tables Tokenizer Parse HtmlWriter.
Import ListNotations.
Open Scope string_scope.
Open Scope list_scope.
Open Scope Z_scope.

(** [Code_Span_Type] (src/bmd/codegen/code_span_type.hpp:15-27). *)
Inductive code_span_type : Type :=
| cs_identifier | cs_type_name | cs_bracket | cs_number | cs_string | cs_comment | cs_operation
| cs_punctuation | cs_keyword | cs_boolean_literal | cs_error.

(** [code_span_type_tag] (src/bmd/codegen/code_span_type.hpp:30-47). *)
Definition code_span_type_tag (t : code_span_type) : text :=
  match t with
  | cs_identifier => str "c-idn"
  | cs_type_name => str "c-typ"
  | cs_bracket => str "c-bra"
  | cs_number => str "c-int"
  | cs_string => str "c-str"
  | cs_comment => str "c-com"
  | cs_operation => str "c-opr"
  | cs_punctuation => str "c-pun"
  | cs_keyword => str "c-key"
  | cs_boolean_literal => str "c-bol"
  | cs_error => str "c-err"
  end.

(** [categorize_token_type] (src/bmd/html/bms_to_html.cpp:14-88). *)
Definition categorize_token_type (t : token_type) : code_span_type :=
  match t with
  | tk_identifier => cs_identifier
  | tk_left_parenthesis | tk_right_parenthesis | tk_left_brace | tk_right_brace => cs_bracket
  | tk_binary_literal | tk_octal_literal | tk_decimal_literal | tk_hexadecimal_literal => cs_number
  | tk_string_literal => cs_string
  | tk_block_comment | tk_line_comment => cs_comment
  | tk_assign | tk_equals | tk_not_equals | tk_plus | tk_minus | tk_multiplication | tk_division
  | tk_remainder | tk_less_than | tk_greater_than | tk_less_or_equal | tk_greater_or_equal
  | tk_shift_left | tk_shift_right | tk_bitwise_and | tk_bitwise_or | tk_bitwise_not | tk_bitwise_xor
  | tk_logical_and | tk_logical_or | tk_logical_not => cs_operation
  | tk_double_right_arrow => cs_error
  | tk_at | tk_dot | tk_colon | tk_comma | tk_semicolon | tk_right_arrow => cs_punctuation
  | tk_keyword_as | tk_keyword_let | tk_keyword_const | tk_keyword_function | tk_keyword_while
  | tk_keyword_if | tk_keyword_else | tk_keyword_requires | tk_keyword_return | tk_keyword_break
  | tk_keyword_continue | tk_keyword_static_assert => cs_keyword
  | tk_keyword_true | tk_keyword_false => cs_boolean_literal
  | tk_keyword_uint | tk_keyword_int | tk_keyword_bool | tk_keyword_void => cs_type_name
  end.

(** The span of a token (src/bms/tokenization/token.hpp:13-26). *)
Definition token_span (t : token) : source_span :=
  Source_Span (Z.of_nat (line (tok_pos t))) (Z.of_nat (column (tok_pos t)))
              (Z.of_nat (begin (tok_pos t))) (Z.of_nat (tok_length t)).

(** Which error [bms_inline_code_to_html] returns, if any (src/bmd/html/bms_to_html.hpp:17-33). *)
Inductive bms_result : Type := bms_fine | bms_tokenize_error | bms_parse_error.

Section Code.
(** The errors of the surrounding code; the functions below return none of them. *)
Context {E : Type}.

(** [tokens_to_html] (src/bmd/html/bms_to_html.cpp:90-104), from the token after [previous] on.
    [code.substr] throws if the token begins behind the end of the code, which no token of [tokenize]
    does. *)
Fixpoint tokens_to_html (code : text) (previous : option token) (tokens : list token) (w : writer)
  : outcome E writer :=
  match tokens with
  | [] => Ok w
  | t :: rest =>
      let* w := match previous with
                | None => Ok w
                | Some p => write_source_gap (token_span p) (token_span t) fs_pre w
                end in
      let tag := Tag_Properties (code_span_type_tag (categorize_token_type (tok_type t))) fs_pre in
      let* w := begin_tag tag w in
      assert_then (Nat.leb (begin (tok_pos t)) (length code))
        (let* '(_, w) := write_inner_text
             (firstn (tok_length t) (skipn (begin (tok_pos t)) code)) fs_pre w in
         let* w := end_tag tag w in
         tokens_to_html code (Some t) rest w)
  end.

(** [bms_inline_code_to_html] (src/bmd/html/bms_to_html.cpp:108-130): the error it returns, and the
    writer.  [None] is a loop of the tokenizer or of the parser that does not end. *)
Definition bms_inline_code_to_html (code : text) (w : writer)
  : option (outcome E (bms_result * writer)) :=
  match tokenize code with
  | None => None
  | Some Abort => Some Abort
  | Some UB => Some UB
  | Some (Err _) =>
      Some (let* '(_, w) := write_inner_text code fs_in_line w in Ok (bms_tokenize_error, w))
  | Some (Ok tokens) =>
      match parse (lexemes code tokens) with
      | None => None
      | Some Abort => Some Abort
      | Some UB => Some UB
      | Some (Err _) => Some (let* w := tokens_to_html code None tokens w in Ok (bms_parse_error, w))
      | Some (Ok _) => Some (let* w := tokens_to_html code None tokens w in Ok (bms_fine, w))
      end
  end.

End Code.
