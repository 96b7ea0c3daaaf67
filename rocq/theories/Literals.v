(** Matching and evaluating literals and comments.  Models src/common/parse.cpp and
    src/common/parse.hpp. *)
From Coq Require Import ZArith Ascii String List Bool.
From Verif Require Import Prelude Text.
Import ListNotations.
Open Scope string_scope.
Open Scope Z_scope.

(** [safe_mul] (src/common/parse.cpp:14-19): the new value and whether it is considered correct. *)
Definition safe_mul (x y : Z) : Z * bool := let r := to_big_uint (x * y) in (r, x <=? r).

(** [safe_add] (src/common/parse.cpp:21-26). *)
Definition safe_add (x y : Z) : Z * bool := let r := to_big_uint (x + y) in (r, x <=? r).

(** [is_decimal_digit] (src/common/parse.hpp:57-60). *)
Definition is_decimal_digit (c : ascii) : bool := (code "0" <=? code c) && (code c <=? code "9").

(** [is_space] (src/common/parse.hpp:65-68). *)
Definition is_space (c : ascii) : bool :=
  char_eqb c " " || char_eqb c ch_newline || char_eqb c ch_tab || char_eqb c ch_cr.

(** The loop of [parse_uinteger_digits] for bases up to 10 (src/common/parse.cpp:46-57). *)
Fixpoint parse_digits_small (s : text) (base result : Z) : option Z :=
  match s with
  | [] => Some result
  | c :: s' =>
      if (code c <? code "0") || (code "9" <? code c) then None
      else
        let '(r1, ok1) := safe_mul result base in
        if negb ok1 then None
        else
          let '(r2, ok2) := safe_add r1 (to_big_uint (code c - code "0")) in
          if negb ok2 then None else parse_digits_small s' base r2
  end.

(** The loop of [parse_uinteger_digits] for base 16 (src/common/parse.cpp:61-80). *)
Fixpoint parse_digits_hex (s : text) (result : Z) : option Z :=
  match s with
  | [] => Some result
  | c :: s' =>
      let '(r1, ok1) := safe_mul result 16 in
      if negb ok1 then None
      else if (code "0" <=? code c) && (code c <=? code "9") then
        let '(r2, ok2) := safe_add r1 (to_big_uint (code c - code "0")) in
        if negb ok2 then None else parse_digits_hex s' r2
      else if (code "a" <=? code c) && (code c <=? code "f") then
        let '(r2, ok2) := safe_add r1 (to_big_uint (10 + code c - code "a")) in
        if negb ok2 then None else parse_digits_hex s' r2
      else None
  end.

(** [parse_uinteger_digits] (src/common/parse.cpp:33-81). Its two assertions on [base] hold for every
    caller (bases 2, 8, 10, 16 only) and are omitted. *)
Definition parse_uinteger_digits (s : text) (base : Z) : option Z :=
  match s with
  | [] => None
  | _ => if base <=? 10 then parse_digits_small s base 0 else parse_digits_hex s 0
  end.

(** [Text_Match] (src/common/parse.hpp:49-52). *)
Record text_match : Type := TM { tm_length : nat; tm_terminated : bool }.

(** [match_line_comment] (src/common/parse.cpp:91-101). *)
Definition match_line_comment (s : text) : option text_match :=
  if negb (starts_with s "//") then None
  else match find_char ch_newline (skipn 2 s) with
       | None => Some (TM (length s) false)
       | Some i => Some (TM (2 + i) true)
       end.

(** [match_block_comment] (src/common/parse.cpp:103-114). *)
Definition match_block_comment (s : text) : option text_match :=
  if negb (starts_with s "/*") then None
  else match find_text "*/" (skipn 2 s) with
       | None => Some (TM (length s) false)
       | Some i => Some (TM (2 + i + 2) true)
       end.

(** The loop of [match_string_literal] (src/common/parse.cpp:121-133): index of the closing quote. *)
Fixpoint find_closing_quote (escaped : bool) (s : text) : option nat :=
  match s with
  | [] => None
  | c :: s' =>
      if escaped then option_map S (find_closing_quote false s')
      else if char_eqb c ch_backslash then option_map S (find_closing_quote true s')
      else if char_eqb c ch_quote then Some 0%nat
      else option_map S (find_closing_quote false s')
  end.

(** [match_string_literal] (src/common/parse.cpp:116-134). *)
Definition match_string_literal (s : text) : option text_match :=
  match s with
  | c :: rest =>
      if negb (char_eqb c ch_quote) then None
      else match find_closing_quote false rest with
           | Some i => Some (TM (1 + i + 1) true)
           | None => Some (TM (length s) false)
           end
  | [] => None
  end.

(** [match_digits] (src/common/parse.cpp:136-146). *)
Definition match_digits (s : text) (base : nat) : nat :=
  let hexadecimal_digits : text := "0123456789abcdefABCDEF" in
  let digits := if Nat.eqb base 16 then hexadecimal_digits else firstn base hexadecimal_digits in
  prefix_length (fun c => in_set c digits) s.

(** [html_identifier_characters] and [identifier_characters] (src/common/parse.hpp:104-110). *)
Definition html_identifier_characters : text :=
  "abcdefghijklmnopqrstuvwxyzABCDEFGHIJKLMNOPQRSTUVWXYZ0123456789_-".
(** src/common/parse.hpp:109-110. *)
Definition identifier_characters : text :=
  firstn (length html_identifier_characters - 1) html_identifier_characters.

(** [match_identifier] (src/common/parse.cpp:148-155). *)
Definition match_identifier (s : text) : nat :=
  match s with
  | [] => 0
  | c :: _ =>
      if is_decimal_digit c then 0%nat
      else prefix_length (fun c => in_set c identifier_characters) s
  end.

(** [Literal_Type] and [Literal_Match_Status] (src/common/parse.hpp:13-28). *)
Inductive literal_type : Type := binary_lit | octal_lit | decimal_lit | hexadecimal_lit.
(** src/common/parse.hpp:20-28. *)
Inductive literal_match_status : Type := lm_ok | lm_no_digits | lm_no_digits_following_prefix.

(** [Literal_Match_Result] (src/common/parse.hpp:30-47). *)
Record literal_match : Type :=
  LM { lm_status : literal_match_status; lm_length : nat; lm_type : literal_type }.

(** [match_integer_literal] (src/common/parse.cpp:157-185). *)
Definition match_integer_literal (s : text) : literal_match :=
  match s with
  | [] => LM lm_no_digits 0 binary_lit
  | c :: _ =>
      if negb (is_decimal_digit c) then LM lm_no_digits 0 binary_lit
      else if starts_with s "0b" then
        let digits := match_digits (skipn 2 s) 2 in
        if Nat.eqb digits 0 then LM lm_no_digits_following_prefix 2 binary_lit
        else LM lm_ok (digits + 2) binary_lit
      else if starts_with s "0x" then
        let digits := match_digits (skipn 2 s) 16 in
        if Nat.eqb digits 0 then LM lm_no_digits_following_prefix 2 hexadecimal_lit
        else LM lm_ok (digits + 2) hexadecimal_lit
      else if char_eqb c "0" then
        let digits := match_digits s 8 in
        LM lm_ok digits (if Nat.eqb digits 1 then decimal_lit else octal_lit)
      else LM lm_ok (match_digits s 10) decimal_lit
  end.

(** [parse_uinteger_literal] (src/common/parse.cpp:187-202). *)
Definition parse_uinteger_literal (s : text) : option Z :=
  match s with
  | [] => None
  | _ =>
      if starts_with s "0b" then parse_uinteger_digits (skipn 2 s) 2
      else if starts_with s "0x" then parse_uinteger_digits (skipn 2 s) 16
      else if starts_with s "0" then parse_uinteger_digits s 8
      else parse_uinteger_digits s 10
  end.

(** [parse_integer_literal] (src/common/parse.cpp:204-220). *)
Definition parse_integer_literal (s : text) : option Z :=
  match s with
  | [] => None
  | _ =>
      if starts_with s "-" then
        match parse_uinteger_literal (skipn 1 s) with
        | Some positive => Some (to_big_int (to_big_uint (- positive)))
        | None => None
        end
      else match parse_uinteger_literal s with
           | Some result => Some (to_big_int result)
           | None => None
           end
  end.
