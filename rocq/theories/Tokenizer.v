(** The tokenizer.  Models src/bms/tokenization/tokenize.cpp.  Sizes and positions ([Size], 64 bit) are
    unbounded here: a source text has fewer than 2^62 characters. *)
From Coq Require Import ZArith Ascii String List Bool.
From Verif Require Import Prelude Text Literals Tables.
Import ListNotations.
Open Scope string_scope.
Open Scope list_scope.
Open Scope nat_scope.

(** [Tokenize_Error_Code] (src/bms/tokenization/tokenize_error.hpp:11-22). *)
Inductive tokenize_error_code : Type :=
| illegal_character
| no_digits_following_integer_prefix
| integer_suffix
| unterminated_comment
| unterminated_string.

(** [Local_Source_Position] (src/common/source_position.hpp:12-18). *)
Record position : Type := Pos { line : nat; column : nat; begin : nat }.

(** [Local_Source_Position::to_right] (src/common/source_position.hpp:23-26). *)
Definition to_right (p : position) (offset : nat) : position :=
  Pos (line p) (column p + offset) (begin p + offset).

(** [Tokenize_Error] (src/bms/tokenization/tokenize_error.hpp:37-40). *)
Record tokenize_error : Type := TE { te_code : tokenize_error_code; te_pos : position }.

(** [Token] with its [Local_Source_Span] (src/bms/tokenization/token.hpp:13-26). *)
Record token : Type := Token { tok_pos : position; tok_length : nat; tok_type : token_type }.

(** [token_type_of] (src/bms/tokenization/tokenize.cpp:17-26). *)
Definition token_type_of (l : literal_type) : token_type :=
  match l with
  | binary_lit => tk_binary_literal
  | octal_lit => tk_octal_literal
  | decimal_lit => tk_decimal_literal
  | hexadecimal_lit => tk_hexadecimal_literal
  end.

(** [types_by_name] (src/bms/tokenization/tokenize.cpp:30-52). *)
Definition types_by_name : list (string * token_type) :=
  [ ("as", tk_keyword_as); ("if", tk_keyword_if); ("else", tk_keyword_else);
    ("let", tk_keyword_let); ("const", tk_keyword_const); ("Int", tk_keyword_int);
    ("Uint", tk_keyword_uint); ("Bool", tk_keyword_bool); ("Void", tk_keyword_void);
    ("while", tk_keyword_while); ("break", tk_keyword_break);
    ("continue", tk_keyword_continue); ("return", tk_keyword_return);
    ("function", tk_keyword_function); ("true", tk_keyword_true); ("false", tk_keyword_false);
    ("requires", tk_keyword_requires); ("static_assert", tk_keyword_static_assert) ].

(** The loop of [keyword_by_name] (src/bms/tokenization/tokenize.cpp:54-60). *)
Fixpoint keyword_lookup (table : list (string * token_type)) (s : text) : option token_type :=
  match table with
  | [] => None
  | (name, type) :: rest => if text_eqb name s then Some type else keyword_lookup rest s
  end.

(** [keyword_by_name] (src/bms/tokenization/tokenize.cpp:28-61). *)
Definition keyword_by_name (s : text) : option token_type := keyword_lookup types_by_name s.

(** [s.length() > 1 && s[1] == c] (e.g. src/bms/tokenization/tokenize.cpp:89). *)
Definition second_is (rest : text) (c : ascii) : bool :=
  match rest with x :: _ => char_eqb x c | [] => false end.

(** [match_fixed_length_token] (src/bms/tokenization/tokenize.cpp:63-165). *)
Definition match_fixed_length_token (s : text) : option token_type :=
  match s with
  | [] => None
  | c :: rest =>
      if char_eqb c "(" then Some tk_left_parenthesis
      else if char_eqb c ")" then Some tk_right_parenthesis
      else if char_eqb c "{" then Some tk_left_brace
      else if char_eqb c "}" then Some tk_right_brace
      else if char_eqb c "=" then
        if second_is rest "=" then Some tk_equals
        else if second_is rest ">" then Some tk_double_right_arrow
        else Some tk_assign
      else if char_eqb c "+" then Some tk_plus
      else if char_eqb c "-" then
        if second_is rest ">" then Some tk_right_arrow else Some tk_minus
      else if char_eqb c "*" then Some tk_multiplication
      else if char_eqb c "/" then Some tk_division
      else if char_eqb c "%" then Some tk_remainder
      else if char_eqb c "<" then
        if second_is rest "<" then Some tk_shift_left
        else if second_is rest "=" then Some tk_less_or_equal
        else Some tk_less_than
      else if char_eqb c ">" then
        if second_is rest ">" then Some tk_shift_right
        else if second_is rest "=" then Some tk_greater_or_equal
        else Some tk_greater_than
      else if char_eqb c "&" then
        if second_is rest "&" then Some tk_logical_and else Some tk_bitwise_and
      else if char_eqb c "|" then
        if second_is rest "|" then Some tk_logical_or else Some tk_bitwise_or
      else if char_eqb c "^" then Some tk_bitwise_xor
      else if char_eqb c "~" then Some tk_bitwise_not
      else if char_eqb c "!" then
        if second_is rest "=" then Some tk_not_equals else Some tk_logical_not
      else if char_eqb c ":" then Some tk_colon
      else if char_eqb c ";" then Some tk_semicolon
      else if char_eqb c "." then Some tk_dot
      else if char_eqb c "," then Some tk_comma
      else if char_eqb c "@" then Some tk_at
      else None
  end.

(** Constructor of [Tokenize_Result] (src/bms/tokenization/tokenize.cpp:167-177). *)
Definition tokenize_result (length : nat) (type : token_type) : outcome tokenize_error (nat * token_type) :=
  assert_then (negb (Nat.eqb length 0)) (Ok (length, type)).

(** [Tokenizer::try_match] (src/bms/tokenization/tokenize.cpp:242-317). *)
Definition try_match (pos : position) (s : text) : outcome tokenize_error (nat * token_type) :=
  match s with
  | [] => Abort
  | c :: _ =>
      assert_then (negb (is_space c))
      (let illegal := Err (TE illegal_character pos) in
       if char_eqb c "/" then
         match match_line_comment s with
         | Some m => tokenize_result (tm_length m) tk_line_comment
         | None =>
             match match_block_comment s with
             | Some m =>
                 if negb (tm_terminated m) then Err (TE unterminated_comment pos)
                 else tokenize_result (tm_length m) tk_block_comment
             | None =>
                 match match_fixed_length_token s with
                 | Some type => tokenize_result (token_type_length type) type
                 | None => illegal
                 end
             end
         end
       else if char_eqb c ch_quote then
         match match_string_literal s with
         | Some m =>
             if negb (tm_terminated m) then Err (TE unterminated_string pos)
             else tokenize_result (tm_length m) tk_string_literal
         | None => illegal
         end
       else if is_decimal_digit c then
         let m := match_integer_literal s in
         match lm_status m with
         | lm_ok =>
             let digits := lm_length m in
             match nth_error s digits with
             | Some x =>
                 if in_set x identifier_characters then Err (TE integer_suffix (to_right pos digits))
                 else tokenize_result digits (token_type_of (lm_type m))
             | None => tokenize_result digits (token_type_of (lm_type m))
             end
         | lm_no_digits_following_prefix =>
             Err (TE no_digits_following_integer_prefix (to_right pos 2))
         | lm_no_digits => illegal
         end
       else
         match match_fixed_length_token s with
         | Some type => tokenize_result (token_type_length type) type
         | None =>
             let length := match_identifier s in
             if negb (Nat.eqb length 0) then
               match keyword_by_name (firstn length s) with
               | Some keyword => tokenize_result length keyword
               | None => tokenize_result length tk_identifier
               end
             else illegal
         end)
  end.

(** The loop of [advance_position_by] (src/bms/tokenization/tokenize.cpp:191-202), over the [length]
    characters starting at [begin]. *)
Fixpoint advance_over (chars : text) (p : position) : position :=
  match chars with
  | [] => p
  | c :: chars' =>
      advance_over chars'
        (if char_eqb c ch_tab then Pos (line p) (column p + 4) (begin p + 1)
         else if char_eqb c ch_cr then Pos (line p) 0 (begin p + 1)
         else if char_eqb c ch_newline then Pos (line p + 1) 0 (begin p + 1)
         else Pos (line p) (column p + 1) (begin p + 1))
  end.

(** [advance_position_by] (src/bms/tokenization/tokenize.cpp:188-203). *)
Definition advance_position_by {E} (source : text) (p : position) (len : nat) : outcome E position :=
  assert_then (Nat.ltb (begin p + len) (length source))
    (Ok (advance_over (firstn len (skipn (begin p) source)) p)).

(** One iteration of the loop of [Tokenizer::tokenize]
    (src/bms/tokenization/tokenize.cpp:209-237): [None] when the loop ends successfully, otherwise the
    new token and position. *)
Definition tokenize_step (source : text) (p : position)
  : outcome tokenize_error (option (token * position)) :=
  if Nat.eqb (begin p) (length source) then Ok None
  else assert_then (Nat.ltb (begin p) (length source))
    (let rest := skipn (begin p) source in
     let whitespace_length := prefix_length (fun c => in_set c [" "; ch_cr; ch_tab; ch_newline]%char) rest in
     if Nat.eqb whitespace_length (length rest) then Ok None
     else
       let* p1 := (if Nat.eqb whitespace_length 0 then Ok p
                   else advance_position_by source p whitespace_length) in
       let* r := try_match p1 (skipn whitespace_length rest) in
       let '(len, type) := r in
       let t := Token p1 len type in
       if negb (token_type_eqb type tk_block_comment) then Ok (Some (t, to_right p1 len))
       else let* p2 := advance_position_by source p1 len in Ok (Some (t, p2))).

(** The loop of [Tokenizer::tokenize] (src/bms/tokenization/tokenize.cpp:206-240); [fuel] bounds the
    iterations, and running out of it is the separate result [None], which cannot happen
    ([tokenize_enough_fuel] in TokenizerProofs.v). *)
Fixpoint tokenize_loop (fuel : nat) (source : text) (p : position)
  : option (outcome tokenize_error (list token)) :=
  match fuel with
  | O => None
  | S fuel' =>
      match tokenize_step source p with
      | Ok None => Some (Ok [])
      | Ok (Some (t, p')) =>
          match tokenize_loop fuel' source p' with
          | Some (Ok ts) => Some (Ok (t :: ts))
          | r => r
          end
      | Err e => Some (Err e)
      | Abort => Some Abort
      | UB => Some UB
      end
  end.

(** [tokenize] (src/bms/tokenization/tokenize.cpp:321-325). The tokens appended before an error are not
    part of the result here. *)
Definition tokenize (source : text) : option (outcome tokenize_error (list token)) :=
  tokenize_loop (S (length source)) source (Pos 0 0 0).
