(** Specification of tokens: the spellings documented in src/bms/tokenization/token_type.hpp:11-128,
    what it means for a token to be right at a position, and for tokens to tile the source. *)
From Coq Require Import ZArith Ascii String List Bool.
From Verif Require Import Text Literals LiteralsSpec Tables Tokenizer.
Import ListNotations.
Open Scope string_scope.
Open Scope list_scope.
Open Scope nat_scope.

(** Operators and punctuation and their spelling. *)
Definition operator_spelling (t : token_type) : option string :=
  match t with
  | tk_left_parenthesis => Some "("
  | tk_right_parenthesis => Some ")"
  | tk_left_brace => Some "{"
  | tk_right_brace => Some "}"
  | tk_assign => Some "="
  | tk_equals => Some "=="
  | tk_not_equals => Some "!="
  | tk_plus => Some "+"
  | tk_minus => Some "-"
  | tk_multiplication => Some "*"
  | tk_division => Some "/"
  | tk_remainder => Some "%"
  | tk_less_than => Some "<"
  | tk_greater_than => Some ">"
  | tk_less_or_equal => Some "<="
  | tk_greater_or_equal => Some ">="
  | tk_shift_left => Some "<<"
  | tk_shift_right => Some ">>"
  | tk_bitwise_and => Some "&"
  | tk_bitwise_or => Some "|"
  | tk_bitwise_not => Some "~"
  | tk_bitwise_xor => Some "^"
  | tk_logical_and => Some "&&"
  | tk_logical_or => Some "||"
  | tk_logical_not => Some "!"
  | tk_right_arrow => Some "->"
  | tk_double_right_arrow => Some "=>"
  | tk_dot => Some "."
  | tk_colon => Some ":"
  | tk_comma => Some ","
  | tk_at => Some "@"
  | tk_semicolon => Some ";"
  | _ => None
  end.

(** Keywords and their spelling. *)
Definition keyword_spelling (t : token_type) : option string :=
  match t with
  | tk_keyword_as => Some "as"
  | tk_keyword_let => Some "let"
  | tk_keyword_const => Some "const"
  | tk_keyword_function => Some "function"
  | tk_keyword_while => Some "while"
  | tk_keyword_if => Some "if"
  | tk_keyword_else => Some "else"
  | tk_keyword_uint => Some "Uint"
  | tk_keyword_int => Some "Int"
  | tk_keyword_bool => Some "Bool"
  | tk_keyword_void => Some "Void"
  | tk_keyword_requires => Some "requires"
  | tk_keyword_return => Some "return"
  | tk_keyword_break => Some "break"
  | tk_keyword_continue => Some "continue"
  | tk_keyword_true => Some "true"
  | tk_keyword_false => Some "false"
  | tk_keyword_static_assert => Some "static_assert"
  | _ => None
  end.

(** White space of the language. *)
Definition is_white (c : ascii) : Prop :=
  c = " "%char \/ c = ch_tab \/ c = ch_cr \/ c = ch_newline.

(** The part of a text from [i] (inclusive) to [j] (exclusive). *)
Definition slice (s : text) (i j : nat) : text := firstn (j - i) (skipn i s).

Definition tok_begin (t : token) : nat := begin (tok_pos t).
Definition tok_end (t : token) : nat := tok_begin t + tok_length t.
Definition tok_text (source : text) (t : token) : text := slice source (tok_begin t) (tok_end t).

(** The tokens [ts] tile the source from [from] on: each token starts at or after the end of the
    previous one, is not empty, lies inside the source, and everything between, before and after tokens
    is white space. *)
Inductive tiles (source : text) : nat -> list token -> Prop :=
| tiles_nil : forall from, from <= length source ->
    Forall is_white (slice source from (length source)) -> tiles source from []
| tiles_cons : forall from t ts,
    from <= tok_begin t -> Forall is_white (slice source from (tok_begin t)) ->
    0 < tok_length t -> tok_end t <= length source ->
    tiles source (tok_end t) ts -> tiles source from (t :: ts).

(** Identifier characters: letters, digits and underscore. *)
Definition is_identifier_char (c : ascii) : Prop :=
  (97 <= code c <= 122 \/ 65 <= code c <= 90 \/ 48 <= code c <= 57 \/ code c = 95)%Z.

(** [w] is the longest run of identifier characters at the start of [s]. *)
Definition maximal_word (s w : text) : Prop :=
  w <> [] /\ Forall is_identifier_char w /\
  exists r, s = w ++ r /\ match r with [] => True | c :: _ => ~ is_identifier_char c end.

(** [p] is the longest operator spelling that is a prefix of [s]. *)
Definition longest_operator (s p : text) : Prop :=
  (exists r, s = p ++ r) /\
  forall t q r, operator_spelling t = Some q -> s = str q ++ r -> length (str q) <= length p.

(** A token of type [t] and length [n] is right for the remaining input [s].  [op_len] tells whether the
    token covers exactly the operator spelling. *)
Definition right_token (s : text) (t : token_type) (n : nat) : Prop :=
  match operator_spelling t with
  | Some p => longest_operator s p
              /\ (t = tk_division -> match_line_comment s = None /\ match_block_comment s = None)
  | None =>
      match t with
      | tk_line_comment => exists b, match_line_comment s = Some (TM n b)
      | tk_block_comment => match_block_comment s = Some (TM n true)
      | tk_string_literal => match_string_literal s = Some (TM n true)
      | tk_binary_literal => match_integer_literal s = LM lm_ok n binary_lit
      | tk_octal_literal => match_integer_literal s = LM lm_ok n octal_lit
      | tk_decimal_literal => match_integer_literal s = LM lm_ok n decimal_lit
      | tk_hexadecimal_literal => match_integer_literal s = LM lm_ok n hexadecimal_lit
      | tk_identifier => maximal_word s (firstn n s)
                         /\ (forall k q, keyword_spelling k = Some q -> firstn n s <> str q)
                         /\ forall c r, s = c :: r -> ~ is_digit_of 10 c
      | k => exists q, keyword_spelling k = Some q /\ firstn n s = str q /\ maximal_word s (str q)
      end
  end.

(** Numbers of newlines before an offset, and characters since the last newline. *)
Fixpoint count_newlines (s : text) : nat :=
  match s with
  | [] => 0
  | c :: s' => (if char_eqb c ch_newline then 1 else 0) + count_newlines s'
  end.

(** Distance of the end of [s] from its last newline (or start). *)
Fixpoint since_newline (s : text) (acc : nat) : nat :=
  match s with
  | [] => acc
  | c :: s' => since_newline s' (if char_eqb c ch_newline then 0 else S acc)
  end.

Definition exact_position (source : text) (p : position) : Prop :=
  line p = count_newlines (firstn (begin p) source) /\
  column p = since_newline (firstn (begin p) source) 0.
