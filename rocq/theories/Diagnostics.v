(** Diagnostics: how errors are shown with their place in the source.  Models the parts of
    src/common/diagnostics.cpp about positions, tokenization, parsing and documents, and of
    src/cli/glue.cpp about highlighted code.

    - What is written to a stream is the text; [operator<<] with [setw] pads with spaces on the left.
    - Sizes are unbounded naturals; numbers are written with at most 20 digits, which is enough for 64 bits.
    - An assertion that fails while a message is printed is [Abort]; what was printed before is lost here. *)
From Coq Require Import ZArith Ascii String List Bool.
From Verif Require Import Prelude Text Tables Decimal Tokenizer Parse CodeString.
From Verif Require HtmlWriter BmdParse DocHtml.
Import ListNotations.
Open Scope string_scope.
Open Scope list_scope.
Open Scope nat_scope.

(** The escape sequences (src/common/ansi.hpp:8-26). *)
Definition ansi (parameters : string) : text := ["027"%char; "["%char] ++ str parameters ++ str "m".
Definition ansi_black : text := ansi "30". (* src/common/ansi.hpp:8 *)
Definition ansi_red : text := ansi "31". (* src/common/ansi.hpp:9 *)
Definition ansi_h_black : text := ansi "0;90". (* src/common/ansi.hpp:17 *)
Definition ansi_h_red : text := ansi "0;91". (* src/common/ansi.hpp:18 *)
Definition ansi_h_green : text := ansi "0;92". (* src/common/ansi.hpp:19 *)
Definition ansi_h_yellow : text := ansi "0;93". (* src/common/ansi.hpp:20 *)
Definition ansi_h_blue : text := ansi "0;94". (* src/common/ansi.hpp:21 *)
Definition ansi_h_magenta : text := ansi "0;95". (* src/common/ansi.hpp:22 *)
Definition ansi_h_cyan : text := ansi "0;96". (* src/common/ansi.hpp:23 *)
Definition ansi_h_white : text := ansi "0;97". (* src/common/ansi.hpp:24 *)
Definition ansi_reset : text := ansi "0". (* src/common/ansi.hpp:26 *)

(** [if (colors) out << ...] (e.g. src/common/diagnostics.cpp:609-611). *)
Definition color (colors : bool) (c : text) : text := if colors then c else [].

(** [error_prefix] and [note_prefix] (src/common/diagnostics.cpp:90-91). *)
Definition error_prefix : text := ansi_h_red ++ str "error: " ++ ansi_reset.
Definition note_prefix : text := ansi_h_white ++ str "note: " ++ ansi_reset. (* 91 *)

(** [operator<<] for a [Size] (e.g. src/common/diagnostics.cpp:612). *)
Definition number (n : nat) : text := std_to_string (Z.of_nat n).

(** [std::right << std::setfill(' ') << std::setw(width)] (src/common/diagnostics.cpp:654-655). *)
Definition padded (width : nat) (t : text) : text := repeat " "%char (width - length t) ++ t.

(** [print_file_position] (src/common/diagnostics.cpp:604-617). *)
Definition print_file_position (file : text) (p : position) (colors : bool) : text :=
  color colors ansi_black ++ file ++ str ":" ++ number (line p + 1) ++ str ":" ++ number (column p + 1)
  ++ color colors ansi_reset.

(** The index of the first line feed (used in src/common/diagnostics.cpp:626). *)
Fixpoint first_newline (t : text) : option nat :=
  match t with
  | [] => None
  | c :: r => if char_eqb c ch_newline then Some 0 else option_map S (first_newline r)
  end.

(** The index of the last line feed (used in src/common/diagnostics.cpp:623). *)
Fixpoint last_newline (t : text) : option nat :=
  match t with
  | [] => None
  | c :: r =>
      match last_newline r with
      | Some i => Some (S i)
      | None => if char_eqb c ch_newline then Some 0 else None
      end
  end.

(** [find_line] (src/common/diagnostics.cpp:619-629): [rfind('\n', index)] looks at [index] too. *)
Definition find_line {E} (source : text) (index : nat) : outcome E text :=
  assert_then (Nat.ltb index (length source))
    (let first := match last_newline (firstn (index + 1) source) with Some i => i + 1 | None => 0 end in
     let last := match first_newline (skipn (index + 1) source) with
                 | Some i => index + 1 + i
                 | None => length source
                 end in
     Ok (firstn (last - first) (skipn first source))).

(** [separator] (src/common/diagnostics.cpp:648). *)
Definition separator : text := str " | ".

(** [print_affected_line] (src/common/diagnostics.cpp:643-670). *)
Definition print_affected_line {E} (source : text) (p : position) (colors : bool) : outcome E text :=
  let* l := find_line source (begin p) in
  Ok (color colors ansi_h_yellow ++ padded 5 (number (line p + 1)) ++ separator ++ color colors ansi_reset
      ++ l ++ [ch_newline] ++ padded 5 [] ++ separator ++ repeat " "%char (column p)
      ++ color colors ansi_h_green ++ str "^" ++ [ch_newline] ++ color colors ansi_reset).

(** [to_prose(Tokenize_Error_Code)] (src/common/diagnostics.cpp:93-105). *)
Definition tokenize_prose {E} (c : tokenize_error_code) : outcome E text :=
  match c with
  | illegal_character => Ok (str "Illegal character encountered.")
  | integer_suffix => Ok (str "Suffix after integer literal is not allowed")
  | unterminated_comment => Ok (str "Unterminated block comment found. '/*' must have a matching '*/'")
  | no_digits_following_integer_prefix | unterminated_string => Abort
  end.

(** [print_tokenize_error] (src/common/diagnostics.cpp:672-682). *)
Definition print_tokenize_error {E} (file source : text) (e : tokenize_error) (colors : bool)
  : outcome E text :=
  let* prose := tokenize_prose (te_code e) in
  let* affected := print_affected_line source (te_pos e) colors in
  Ok (print_file_position file (te_pos e) colors ++ str ": " ++ error_prefix ++ prose ++ [ch_newline]
      ++ affected).

(** The tokens that [tokenize] has appended when it ends, also when it fails
    (src/bms/tokenization/tokenize.cpp:206-240). *)
Fixpoint tokens_appended (fuel : nat) (source : text) (p : position) : list token :=
  match fuel with
  | O => []
  | S fuel' =>
      match tokenize_step source p with
      | Ok (Some (t, p')) => t :: tokens_appended fuel' source p'
      | _ => []
      end
  end.

(** [token_type_readable_name] (src/bms/util.cpp:76-142). *)
Definition readable_name (t : token_type) : text :=
  match t with
  | tk_identifier => str "identifier"
  | tk_left_parenthesis => str "'('"
  | tk_right_parenthesis => str "')'"
  | tk_decimal_literal => str "decimal literal"
  | tk_octal_literal => str "octal literal"
  | tk_hexadecimal_literal => str "hexadecimal literal"
  | tk_binary_literal => str "binary literal"
  | tk_string_literal => str "string_literal"
  | tk_left_brace => str "'{'"
  | tk_right_brace => str "'}'"
  | tk_block_comment => str "'/*'"
  | tk_line_comment => str "'//'"
  | tk_assign => str "'='"
  | tk_equals => str "'=='"
  | tk_not_equals => str "'!='"
  | tk_plus => str "'+'"
  | tk_minus => str "'-'"
  | tk_multiplication => str "'*'"
  | tk_division => str "'/'"
  | tk_remainder => str "'%'"
  | tk_less_than => str "'<'"
  | tk_greater_than => str "'>'"
  | tk_less_or_equal => str "'<='"
  | tk_greater_or_equal => str "'>='"
  | tk_shift_left => str "'<<'"
  | tk_shift_right => str "'>>'"
  | tk_bitwise_and => str "'&'"
  | tk_bitwise_or => str "'|'"
  | tk_bitwise_not => str "'~'"
  | tk_bitwise_xor => str "'^'"
  | tk_logical_and => str "'&&'"
  | tk_logical_or => str "'||'"
  | tk_logical_not => str "'!'"
  | tk_right_arrow => str "'->'"
  | tk_double_right_arrow => str "'=>'"
  | tk_dot => str "'.'"
  | tk_colon => str "':'"
  | tk_comma => str "','"
  | tk_at => str "'@'"
  | tk_semicolon => str "';'"
  | tk_keyword_as => str "'as'"
  | tk_keyword_let => str "'let'"
  | tk_keyword_const => str "'const'"
  | tk_keyword_function => str "'function'"
  | tk_keyword_while => str "'while'"
  | tk_keyword_if => str "'if'"
  | tk_keyword_else => str "'else'"
  | tk_keyword_uint => str "'Uint'"
  | tk_keyword_int => str "'Int'"
  | tk_keyword_bool => str "'Bool'"
  | tk_keyword_void => str "'Void'"
  | tk_keyword_requires => str "'requires'"
  | tk_keyword_return => str "'return'"
  | tk_keyword_break => str "'break'"
  | tk_keyword_continue => str "'continue'"
  | tk_keyword_true => str "'true'"
  | tk_keyword_false => str "'false'"
  | tk_keyword_static_assert => str "'static_assert'"
  end.

(** [grammar_rule_name] (src/bms/util.cpp:451-505), for the rules named in errors. *)
Definition rule_name (r : grammar_rule) : text :=
  match r with
  | gr_program_declaration => str "program_declaration"
  | gr_const_declaration => str "const_declaration"
  | gr_let_declaration => str "let_declaration"
  | gr_initializer => str "initializer"
  | gr_function_declaration => str "function_declaration"
  | gr_requires_clause => str "requires_clause"
  | gr_parameter => str "parameter"
  | gr_static_assertion => str "static_assertion"
  | gr_annotation => str "annotation"
  | gr_annotation_argument => str "annotation_argument"
  | gr_statement => str "statement"
  | gr_assignment_statement => str "assignment_statement"
  | gr_function_call_statement => str "function_call_statement"
  | gr_assignment => str "assignment"
  | gr_break_statement => str "break_statement"
  | gr_continue_statement => str "continue_statement"
  | gr_return_statement => str "return_statement"
  | gr_if_statement => str "if_statement"
  | gr_else_statement => str "else_statement"
  | gr_while_statement => str "while_statement"
  | gr_block_statement => str "block_statement"
  | gr_conversion_expression => str "conversion_expression"
  | gr_if_expression => str "if_expression"
  | gr_comparison_expression => str "comparison_expression"
  | gr_function_call_expression => str "function_call_expression"
  | gr_primary_expression => str "primary_expression"
  | gr_parenthesized_expression => str "parenthesized_expression"
  | gr_type => str "type"
  end.

(** [fail_token] (src/bms/parsing/parse.cpp:402): the first of the remaining tokens, or [Token {}]. *)
Definition fail_token (tokens : list token) (e : parse_error) : token :=
  match nth_error tokens (length tokens - length (pe_rest e)) with
  | Some t => t
  | None => Token (Pos 0 0 0) 0 tk_identifier
  end.

(** The loop of [print_parse_error] (src/common/diagnostics.cpp:706-709), from index [i] on. *)
Fixpoint expected_rest (first : bool) (l : list token_type) : text :=
  match l with
  | [] => []
  | k :: r =>
      (match r with [] => str ", or " | _ :: _ => if first then [] else str ", " end)
      ++ readable_name k ++ expected_rest false r
  end.

(** The expected tokens in [print_parse_error] (src/common/diagnostics.cpp:697-710). *)
Definition expected_text (l : list token_type) : text :=
  match l with
  | [] => str "nothing"
  | [k] => readable_name k
  | _ => str "one of: " ++ expected_rest true l
  end.

(** [print_parse_error] for BMS (src/common/diagnostics.cpp:684-713). *)
Definition print_parse_error {E} (file source : text) (tokens : list token) (e : parse_error)
    (colors : bool) : outcome E text :=
  let t := fail_token tokens e in
  let* affected := print_affected_line source (tok_pos t) colors in
  Ok (print_file_position file (tok_pos t) colors ++ str ": " ++ error_prefix
      ++ str "unexpected token " ++ readable_name (tok_type t) ++ str " while matching '"
      ++ rule_name (pe_rule e) ++ str "'" ++ [ch_newline]
      ++ print_file_position file (tok_pos t) colors ++ str ": " ++ note_prefix ++ str "expected "
      ++ expected_text (pe_expected e) ++ [ch_newline] ++ affected).

(** [to_prose(bmd::Parse_Error_Code)] (src/common/diagnostics.cpp:269-300). *)
Definition bmd_prose (c : BmdParse.bmd_error_code) : text :=
  match c with
  | BmdParse.be_unexpected_character => str "Encountered unexpected character while parsing."
  | BmdParse.be_unexpected_eof => str "Unexpected end of file."
  | BmdParse.be_unterminated_comment => str "Unterminated comment."
  | BmdParse.be_invalid_integer_literal => str "Invalid integer literal."
  | BmdParse.be_integer_suffix => str "Suffixes after integer literals are not allowed. Did you forget a space, comma, etc.?"
  | BmdParse.be_invalid_directive => str "Invalid directive."
  | BmdParse.be_duplicate_argument => str "Duplicate argument in directive argument list."
  | BmdParse.be_directive_must_be_empty => str "This directive must have an empty block or no block at all."
  | BmdParse.be_paragraph_break_in_span => str "Paragraph breaks (blank lines) are not allowed in this directive."
  | BmdParse.be_directive_in_text_span => str "Only plaintext is allowed here, no directives."
  | BmdParse.be_text_in_directive_list => str "Only directives are allowed here, no plaintext."
  | BmdParse.be_directive_not_allowed => str "This directive is not allowed here."
  end.

(** [bmd::grammar_rule_name] (src/bmd/parsing/grammar.hpp:36-59). *)
Definition bmd_rule_name (r : BmdParse.bmd_rule) : text :=
  match r with
  | BmdParse.br_document => str "document"
  | BmdParse.br_content => str "content"
  | BmdParse.br_paragraph => str "paragraph"
  | BmdParse.br_paragraph_break => str "paragraph_break"
  | BmdParse.br_text => str "text"
  | BmdParse.br_directive => str "directive"
  | BmdParse.br_arguments => str "arguments"
  | BmdParse.br_block => str "block"
  | BmdParse.br_raw_content => str "raw_content"
  | BmdParse.br_argument => str "argument"
  | BmdParse.br_value => str "value"
  | BmdParse.br_binary_literal => str "binary_literal"
  | BmdParse.br_octal_literal => str "octal_literal"
  | BmdParse.br_decimal_literal => str "decimal_literal"
  | BmdParse.br_hexadecimal_literal => str "hexadecimal_literal"
  | BmdParse.br_identifier => str "identifier"
  | BmdParse.br_blank => str "blank"
  end.

(** A position in a document as one in a program; both are [Local_Source_Position]
    (src/common/source_position.hpp:12-35). *)
Definition of_document (p : BmdParse.position) : position :=
  Pos (Z.to_nat (BmdParse.po_line p)) (Z.to_nat (BmdParse.po_column p)) (Z.to_nat (BmdParse.po_begin p)).

(** [print_parse_error] for BMD (src/common/diagnostics.cpp:715-737). *)
Definition print_bmd_error {E} (file source : text) (e : BmdParse.bmd_error) (colors : bool)
  : outcome E text :=
  let p := of_document (BmdParse.pe_pos e) in
  let* message :=
    match BmdParse.pe_code e with
    | BmdParse.be_unexpected_character =>
        match nth_error source (begin p) with
        | None => UB
        | Some c => Ok (str "unexpected character '" ++ [c] ++ str "' while matching '"
                        ++ bmd_rule_name (BmdParse.pe_rule e) ++ str "'" ++ [ch_newline])
        end
    | c => Ok (bmd_prose c ++ [ch_newline])
    end in
  let* affected := match source with [] => Ok [] | _ :: _ => print_affected_line source p colors end in
  Ok (print_file_position file p colors ++ str ": " ++ error_prefix ++ message ++ affected).

(** [to_prose(Document_Error_Code)] (src/common/diagnostics.cpp:302-325). *)
Definition document_prose (c : DocHtml.document_error_code) : text :=
  match c with
  | DocHtml.de_writer_misuse => str "The internal HTML writer has been misused by the developer."
  | DocHtml.de_directive_not_allowed => str "This directive is not allowed here."
  | DocHtml.de_meta_not_at_start_of_file => str "A \meta directive must be at the beginning of the document."
  | DocHtml.de_duplicate_meta_entry => str "Each entry within a \meta directive must be unique, but an entry was duplicated."
  | DocHtml.de_invalid_language => str "This language is not valid or not supported for syntax highlighting."
  | DocHtml.de_invalid_architecture => str "This architecture is not valid."
  | DocHtml.de_number_attribute_not_allowed => str "This annotation cannot have a numeric value; only strings can be provided."
  | DocHtml.de_code_tokenization_failure => str "Syntax highlighting for this code snipped failed. Is it ill-formed? Consider using 'text' language or '\tt' (teletype), not '\c'."
  end.

(** [print_internal_error_notice] (src/common/diagnostics.cpp:992-1003). *)
Definition internal_error_notice (colors : bool) : text :=
  color colors ansi_h_yellow ++ str "This is an internal error. Please report this bug at:" ++ [ch_newline]
  ++ str "https://github.com/Eisenwave/bit-manipulation/issues" ++ [ch_newline] ++ color colors ansi_reset.

(** [print_document_error] (src/common/diagnostics.cpp:748-762). *)
Definition print_document_error {E} (file source : text) (e : DocHtml.document_error) (colors : bool)
  : outcome E text :=
  let p := of_document (DocHtml.de_pos e) in
  let* affected := print_affected_line source p colors in
  Ok (print_file_position file p colors ++ str ": " ++ error_prefix ++ document_prose (DocHtml.de_code e)
      ++ [ch_newline] ++ affected
      ++ match DocHtml.de_code e with
         | DocHtml.de_writer_misuse => internal_error_notice colors
         | _ => []
         end).

(** [token_type_name] (src/bms/util.cpp:9-74). *)
Definition type_name (t : token_type) : text :=
  match t with
  | tk_identifier => str "identifier"
  | tk_left_parenthesis => str "left_parenthesis"
  | tk_right_parenthesis => str "right_parenthesis"
  | tk_decimal_literal => str "decimal_literal"
  | tk_octal_literal => str "octal_literal"
  | tk_hexadecimal_literal => str "hexadecimal_literal"
  | tk_binary_literal => str "binary_literal"
  | tk_string_literal => str "string_literal"
  | tk_left_brace => str "left_brace"
  | tk_right_brace => str "right_brace"
  | tk_block_comment => str "block_comment"
  | tk_line_comment => str "line_comment"
  | tk_assign => str "assign"
  | tk_equals => str "equals"
  | tk_not_equals => str "not_equals"
  | tk_plus => str "plus"
  | tk_minus => str "minus"
  | tk_multiplication => str "multiplication"
  | tk_division => str "division"
  | tk_remainder => str "remainder"
  | tk_less_than => str "less_than"
  | tk_greater_than => str "greater_than"
  | tk_less_or_equal => str "less_or_equal"
  | tk_greater_or_equal => str "greater_or_equal"
  | tk_shift_left => str "shift_left"
  | tk_shift_right => str "shift_right"
  | tk_bitwise_and => str "bitwise_and"
  | tk_bitwise_or => str "bitwise_or"
  | tk_bitwise_not => str "bitwise_not"
  | tk_bitwise_xor => str "bitwise_xor"
  | tk_logical_and => str "logical_and"
  | tk_logical_or => str "logical_or"
  | tk_logical_not => str "logical_not"
  | tk_right_arrow => str "right_arrow"
  | tk_double_right_arrow => str "double_right_arrow"
  | tk_dot => str "dot"
  | tk_colon => str "colon"
  | tk_comma => str "comma"
  | tk_at => str "at"
  | tk_semicolon => str "semicolon"
  | tk_keyword_as => str "keyword_as"
  | tk_keyword_let => str "keyword_let"
  | tk_keyword_const => str "keyword_const"
  | tk_keyword_function => str "keyword_function"
  | tk_keyword_while => str "keyword_while"
  | tk_keyword_if => str "keyword_if"
  | tk_keyword_else => str "keyword_else"
  | tk_keyword_uint => str "keyword_uint"
  | tk_keyword_int => str "keyword_int"
  | tk_keyword_bool => str "keyword_bool"
  | tk_keyword_void => str "keyword_void"
  | tk_keyword_requires => str "keyword_requires"
  | tk_keyword_return => str "keyword_return"
  | tk_keyword_break => str "keyword_break"
  | tk_keyword_continue => str "keyword_continue"
  | tk_keyword_true => str "keyword_true"
  | tk_keyword_false => str "keyword_false"
  | tk_keyword_static_assert => str "keyword_static_assert"
  end.

(** [string_view::substr], which throws if it begins behind the end (used in
    src/common/diagnostics.cpp:808). *)
Definition substr {E} (t : text) (first count : nat) : outcome E text :=
  assert_then (Nat.leb first (length t)) (Ok (firstn count (skipn first t))).

(** [print_tokens] (src/common/diagnostics.cpp:804-826). *)
Fixpoint print_tokens {E} (tokens : list token) (source : text) : outcome E text :=
  match tokens with
  | [] => Ok []
  | t :: r =>
      let* x := substr source (begin (tok_pos t)) (tok_length t) in
      let* rest := print_tokens r source in
      Ok (padded 2 (number (line (tok_pos t) + 1)) ++ str ":" ++ padded 2 (number (column (tok_pos t) + 1))
          ++ str ": " ++ type_name (tok_type t)
          ++ (if Nat.eqb (token_type_length (tok_type t)) 0
              then str "(" ++ x ++ str ")"
                   ++ (if Nat.ltb 1 (length x) then str " (" ++ number (length x) ++ str " characters)" else [])
              else [])
          ++ [ch_newline] ++ rest)
  end.

(** The loop of [print_cut_off] (src/common/diagnostics.cpp:947-969); [room] is what [visual_length] has
    left. *)
Fixpoint print_cut_off (room : Z) (v : text) (colors : bool) : text :=
  match v with
  | [] => []
  | c :: r =>
      if (room <=? 0)%Z then color colors ansi_h_black ++ str " ..." ++ color colors ansi_reset
      else
        let escaped (x : string) :=
          color colors ansi_h_red ++ str x ++ color colors ansi_reset ++ print_cut_off (room - 2) r colors in
        if char_eqb c ch_cr then escaped "\r"
        else if char_eqb c ch_tab then escaped "\t"
        else if char_eqb c ch_newline then escaped "\n"
        else c :: print_cut_off (room - 1) r colors
  end.

(** [highlight_color_of(Code_Span_Type)] (src/cli/glue.cpp:42-65). *)
Definition highlight_color (k : span_type) : text :=
  match k with
  | sp_identifier => ansi_h_white
  | sp_type_name => ansi_h_blue
  | sp_number => ansi_h_cyan
  | sp_string => ansi_h_green
  | sp_comment | sp_operation => ansi_h_black
  | sp_bracket | sp_punctuation => ansi_black
  | sp_keyword | sp_boolean_literal => ansi_h_magenta
  | sp_error => ansi_h_red
  end.

(** The loop of [print_code_string] (src/cli/glue.cpp:174-188), with the end of the previous span. *)
Fixpoint print_spans {E} (t : text) (spans : list span) (previous_end : nat) : outcome E text :=
  match spans with
  | [] => if Nat.eqb previous_end (length t) then Ok [] else substr t previous_end (length t)
  | s :: r =>
      assert_then (Nat.leb previous_end (s_begin s))
        (let* gap := if Nat.eqb previous_end (s_begin s) then Ok []
                     else substr t previous_end (s_begin s - previous_end) in
         let* x := substr t (s_begin s) (s_length s) in
         let* rest := print_spans t r (s_begin s + s_length s) in
         Ok (gap ++ highlight_color (s_type s) ++ x ++ ansi_reset ++ rest))
  end.

(** [print_code_string] (src/cli/glue.cpp:166-191). *)
Definition print_code_string {E} (s : code_string) (colors : bool) : outcome E text :=
  if colors then print_spans (cs_text s) (cs_spans s) 0 else Ok (cs_text s).
