(** Parsing of BMD documents. Models src/bmd/parsing/parse.cpp, src/bmd/parsing/parse.hpp and
    src/bmd/parsing/ast.hpp. *)
From Coq Require Import ZArith Ascii String List Bool.
From Verif Require Import Prelude Text Literals HtmlWriter Directives.
Import ListNotations.
Open Scope string_scope.
Open Scope list_scope.
Open Scope Z_scope.

(** [Parse_Error_Code] (src/bmd/parsing/parse.hpp:18-33). *)
Inductive bmd_error_code : Type :=
| be_unexpected_character | be_unterminated_comment | be_invalid_integer_literal | be_unexpected_eof
| be_duplicate_argument | be_integer_suffix | be_invalid_directive | be_directive_must_be_empty
| be_paragraph_break_in_span | be_directive_in_text_span | be_text_in_directive_list
| be_directive_not_allowed.

(** [Grammar_Rule] (src/bmd/parsing/grammar.hpp:15-33). *)
Inductive bmd_rule : Type :=
| br_document | br_content | br_paragraph | br_paragraph_break | br_text | br_directive | br_arguments
| br_block | br_raw_content | br_argument | br_value | br_binary_literal | br_octal_literal
| br_decimal_literal | br_hexadecimal_literal | br_identifier | br_blank.

(** [Local_Source_Position] (src/common/source_position.hpp:12-35). The members are [Size]s; they are
    not reduced modulo 2^64 here, as they are at most four times the length of a text in memory. *)
Record position : Type := Position { po_line : Z; po_column : Z; po_begin : Z }.

(** [Parse_Error] (src/bmd/parsing/parse.hpp:35-39). *)
Record bmd_error : Type := Bmd_Error { pe_code : bmd_error_code; pe_rule : bmd_rule; pe_pos : position }.

(** [ast::Value], [ast::Identifier] and [ast::Number] (src/bmd/parsing/ast.hpp:34-69). *)
Inductive bmd_value : Type :=
| V_identifier (s : source_span) (t : text)
| V_number (s : source_span) (n : Z) (k : literal_type).

(** [ast::Some_Node], [ast::List], [ast::Directive] and [ast::Text] (src/bmd/parsing/ast.hpp:97-199).
    The arguments, an unordered map, are in the order of their insertion. *)
Inductive bmd_node : Type :=
| B_list (s : source_span) (children : list bmd_node)
| B_directive (s : source_span) (t : directive_type) (id : text) (args : list (text * bmd_value))
              (block : option bmd_node)
| B_text (s : source_span) (t : text).

(** The state of a [Parser] (src/bmd/parsing/parse.cpp:91-96): [m_pos], and the rest of [m_source] after
    it, [peek_all()] (157-160). *)
Record pstate : Type := PState { ps_pos : position; ps_rest : text }.

(** [advance_position_based_on] (src/bmd/parsing/parse.cpp:139-152). *)
Definition advance (c : ascii) (p : position) : position :=
  if char_eqb c ch_tab then Position (po_line p) (po_column p + 4) (po_begin p + 1)
  else if char_eqb c ch_cr then Position (po_line p) 0 (po_begin p + 1)
  else if char_eqb c ch_newline then Position (po_line p + 1) 0 (po_begin p + 1)
  else Position (po_line p) (po_column p + 1) (po_begin p + 1).

(** [to_right] (src/common/source_position.hpp:23-26). *)
Definition to_right (n : nat) (p : position) : position :=
  Position (po_line p) (po_column p + Z.of_nat n) (po_begin p + Z.of_nat n).

(** [m_pos = m_pos.to_right(n)], with the rest of the source (src/bmd/parsing/parse.cpp:892). *)
Definition skip (n : nat) (st : pstate) : pstate :=
  PState (to_right n (ps_pos st)) (skipn n (ps_rest st)).

(** [to_left] (src/common/source_position.hpp:28-33). *)
Definition to_left (n : nat) (p : position) : outcome bmd_error position :=
  assert_then (Z.of_nat n <=? po_column p)
    (assert_then (Z.of_nat n <=? po_begin p)
       (Ok (Position (po_line p) (po_column p - Z.of_nat n) (po_begin p - Z.of_nat n)))).

(** A span from a position on (e.g. src/bmd/parsing/parse.cpp:316-317). *)
Definition span_of (p : position) (length : Z) : source_span :=
  Source_Span (po_line p) (po_column p) (po_begin p) length.

(** [is_escapeable] (src/bmd/parsing/parse.cpp:70-73). *)
Definition is_escapeable (c : ascii) : bool :=
  char_eqb c ch_backslash || char_eqb c "}" || char_eqb c "{".

(** [grammar_rule_of] (src/bmd/parsing/parse.cpp:75-85). *)
Definition rule_of_literal (k : literal_type) : bmd_rule :=
  match k with
  | binary_lit => br_binary_literal
  | octal_lit => br_octal_literal
  | decimal_lit => br_decimal_literal
  | hexadecimal_lit => br_hexadecimal_literal
  end.

(** [eof] (src/bmd/parsing/parse.cpp:181-184). *)
Definition eof (st : pstate) : bool := match ps_rest st with [] => true | _ :: _ => false end.

(** [peek(predicate)] (src/bmd/parsing/parse.cpp:226-229). *)
Definition peek_if (f : ascii -> bool) (st : pstate) : bool :=
  match ps_rest st with [] => false | c :: _ => f c end.

(** [peek(char)] (src/bmd/parsing/parse.cpp:196-199). *)
Definition peek_char (c : ascii) (st : pstate) : bool := peek_if (char_eqb c) st.

(** [peek_possible_directive] (src/bmd/parsing/parse.cpp:208-214). *)
Definition peek_possible_directive (st : pstate) : bool :=
  match ps_rest st with
  | [] => false
  | c :: r => char_eqb c ch_backslash && match r with [] => true | d :: _ => negb (is_escapeable d) end
  end.

(** A [Rule_Error] with the position at which [parse] reports it (src/bmd/parsing/parse.cpp:98-101,
    120-127). No caller moves [m_pos] between the two. *)
Definition fail {A} (c : bmd_error_code) (r : bmd_rule) (st : pstate) : outcome bmd_error A :=
  Err (Bmd_Error c r (ps_pos st)).

(** [expect(char)] (src/bmd/parsing/parse.cpp:231-241), failing with a given rule. *)
Definition expect (c : ascii) (rule : bmd_rule) (st : pstate) : outcome bmd_error pstate :=
  match ps_rest st with
  | [] => fail be_unexpected_eof rule st
  | d :: r => if char_eqb d c then Ok (PState (advance c (ps_pos st)) r)
              else fail be_unexpected_character rule st
  end.

(** [Blank] (src/bmd/parsing/parse.cpp:87-90). *)
Record blank : Type := Blank { bl_length : Z; bl_break : bool }.

(** Where [match_blank] is in its loops (src/bmd/parsing/parse.cpp:807-850): between comments, in a line
    comment (815-824), in a block comment (830-838). *)
Inductive comment_mode : Type := cm_none | cm_line | cm_block.

(** The loops of [match_blank] (src/bmd/parsing/parse.cpp:807-850). The two-character [expect]s assert that
    they do not end the source (129-135, 255-262). *)
Fixpoint blank_loop (m : comment_mode) (newlines : Z) (is_break : bool) (p : position) (s : text)
  : outcome bmd_error (bool * pstate) :=
  match m with
  | cm_none =>
      match s with
      | [] => Ok (is_break, PState p s)
      | c :: r =>
          match r with
          | d :: r' =>
              if char_eqb c "/" && char_eqb d "/" then
                match r' with
                | [] => Abort
                | _ :: _ => blank_loop cm_line 0 is_break (advance d (advance c p)) r'
                end
              else if char_eqb c "/" && char_eqb d "*" then
                match r' with
                | [] => Abort
                | _ :: _ => blank_loop cm_block 0 is_break (advance d (advance c p)) r'
                end
              else if negb (is_space c) then Ok (is_break, PState p s)
              else if char_eqb c ch_newline then
                blank_loop cm_none (newlines + 1) (is_break || (1 <? newlines + 1)) (advance c p) r
              else blank_loop cm_none newlines is_break (advance c p) r
          | [] =>
              if negb (is_space c) then Ok (is_break, PState p s)
              else if char_eqb c ch_newline then
                blank_loop cm_none (newlines + 1) (is_break || (1 <? newlines + 1)) (advance c p) r
              else blank_loop cm_none newlines is_break (advance c p) r
          end
      end
  | cm_line =>
      match s with
      | [] => fail be_unterminated_comment br_blank (PState p s)
      | c :: r =>
          if char_eqb c ch_newline then blank_loop cm_none 1 is_break (advance c p) r
          else blank_loop cm_line newlines is_break (advance c p) r
      end
  | cm_block =>
      match s with
      | [] => fail be_unterminated_comment br_blank (PState p s)
      | c :: r =>
          match r with
          | d :: r' =>
              if char_eqb c "*" && char_eqb d "/" then
                blank_loop cm_none newlines is_break (advance d (advance c p)) r'
              else blank_loop cm_block newlines is_break (advance c p) r
          | [] => blank_loop cm_block newlines is_break (advance c p) r
          end
      end
  end.

(** An error with its rule replaced by that of the caller (e.g. src/bmd/parsing/parse.cpp:785). *)
Definition with_rule {A} (r : bmd_rule) (x : outcome bmd_error A) : outcome bmd_error A :=
  match x with
  | Err e => Err (Bmd_Error (pe_code e) r (pe_pos e))
  | _ => x
  end.

(** [match_blank()] (src/bmd/parsing/parse.cpp:801-853), with the rule that the caller reports. *)
Definition match_blank (rule : bmd_rule) (st : pstate) : outcome bmd_error (blank * pstate) :=
  let* '(b, st') := with_rule rule (blank_loop cm_none 0 false (ps_pos st) (ps_rest st)) in
  Ok (Blank (po_begin (ps_pos st') - po_begin (ps_pos st)) b, st').

(** [match_blank(Grammar_Rule::blank)] (src/bmd/parsing/parse.cpp:782-799): does not match a paragraph
    break.  It is not called with the other rule. *)
Definition match_word_blank (st : pstate) : outcome bmd_error (blank * pstate) :=
  let* '(b, st') := match_blank br_blank st in
  if bl_break b then Ok (Blank 0 true, st) else Ok (b, st').

(** The loop of [match_text_impl] (src/bmd/parsing/parse.cpp:527-553): the final position. *)
Fixpoint text_loop (final : pstate) (break_possible : bool) (p : position) (s : text) : pstate :=
  match s with
  | [] => final
  | c :: r =>
      let p' := advance c p in
      if is_space c then
        if char_eqb c ch_newline then
          if break_possible then final else text_loop final true p' r
        else text_loop final break_possible p' r
      else if char_eqb c "/" then
        match r with
        | d :: _ =>
            if char_eqb d "/" || char_eqb d "*" then final
            else text_loop (PState p' r) false p' r
        | [] => text_loop (PState p' r) false p' r
        end
      else if char_eqb c ch_backslash then
        match r with
        | d :: r' =>
            if is_escapeable d then text_loop (PState (advance d p') r') false (advance d p') r'
            else final
        | [] => final
        end
      else text_loop (PState p' r) false p' r
  end.

(** [match_text_impl] (src/bmd/parsing/parse.cpp:521-557). *)
Definition match_text_impl (st : pstate) : text * pstate :=
  let st' := text_loop st false (ps_pos st) (ps_rest st) in
  (firstn (Z.to_nat (po_begin (ps_pos st') - po_begin (ps_pos st))) (ps_rest st), st').

(** [match_text] (src/bmd/parsing/parse.cpp:509-519): no node for an empty text. *)
Definition match_text (st : pstate) : outcome bmd_error (option bmd_node * pstate) :=
  let '(t, st') := match_text_impl st in
  match t with
  | [] => Ok (None, st')
  | c :: _ =>
      assert_then (negb (is_space c))
        (assert_then (negb (is_space (last t c)))
           (Ok (Some (B_text (span_of (ps_pos st) (Z.of_nat (length t))) t), st')))
  end.

(** The loops of [match_raw_block_impl] (src/bmd/parsing/parse.cpp:727-775): the state after the closing
    brace. [level] is a [Size] that counts characters in memory. *)
Fixpoint raw_loop (m : comment_mode) (level : nat) (p : position) (s : text) : outcome bmd_error pstate :=
  match m with
  | cm_none =>
      match s with
      | [] => fail be_unexpected_eof br_raw_content (PState p s)
      | c :: r =>
          let p' := advance c p in
          if char_eqb c "}" then
            match level with
            | O => Ok (PState p' r)
            | S level' => raw_loop cm_none level' p' r
            end
          else if char_eqb c "{" then raw_loop cm_none (S level) p' r
          else
            match r with
            | d :: r' =>
                let p'' := advance d p' in
                if char_eqb c ch_backslash && is_escapeable d then raw_loop cm_none level p'' r'
                else if char_eqb c "/" && char_eqb d "/" then raw_loop cm_line level p'' r'
                else if char_eqb c "/" && char_eqb d "*" then raw_loop cm_block level p'' r'
                else raw_loop cm_none level p' r
            | [] => raw_loop cm_none level p' r
            end
      end
  | cm_line =>
      match s with
      | [] => fail be_unterminated_comment br_raw_content (PState p s)
      | c :: r =>
          if char_eqb c ch_newline then raw_loop cm_none level (advance c p) r
          else raw_loop cm_line level (advance c p) r
      end
  | cm_block =>
      match s with
      | [] => fail be_unterminated_comment br_raw_content (PState p s)
      | c :: r =>
          match r with
          | d :: r' =>
              if char_eqb c "*" && char_eqb d "/" then raw_loop cm_none level (advance d (advance c p)) r'
              else raw_loop cm_block level (advance c p) r
          | [] => raw_loop cm_block level (advance c p) r
          end
      end
  end.

(** [match_raw_block_impl] (src/bmd/parsing/parse.cpp:718-780): where the content begins, the content, and
    the state after the closing brace.  [ast::Raw] asserts that it is not empty (59-64). *)
Definition match_raw_block_impl (st : pstate) : outcome bmd_error (position * text * pstate) :=
  let* st1 := expect "{" br_block st in
  let* st2 := raw_loop cm_none 0 (ps_pos st1) (ps_rest st1) in
  let content := firstn (Z.to_nat (po_begin (ps_pos st2) - po_begin (ps_pos st1) - 1)) (ps_rest st1) in
  assert_then (match content with [] => false | _ :: _ => true end) (Ok (ps_pos st1, content, st2)).

(** [match_raw_block] (src/bmd/parsing/parse.cpp:705-712). *)
Definition match_raw_block (st : pstate) : outcome bmd_error (option bmd_node * pstate) :=
  let* '(p, content, st') := match_raw_block_impl st in
  Ok (Some (B_text (span_of p (Z.of_nat (length content))) content), st').

(** [match_identifier] (src/bmd/parsing/parse.cpp:909-921), with its position. *)
Definition match_name (st : pstate) : outcome bmd_error (text * source_span * pstate) :=
  match ps_rest st with
  | [] => fail be_unexpected_eof br_identifier st
  | _ :: _ =>
      match match_identifier (ps_rest st) with
      | O => fail be_unexpected_character br_identifier st
      | S n => Ok (firstn (S n) (ps_rest st), span_of (ps_pos st) (Z.of_nat (S n)), skip (S n) st)
      end
  end.

(** [Int64(x)] (src/bmd/parsing/parse.cpp:905). *)
Definition to_int64 (z : Z) : Z :=
  let u := z mod 2 ^ 64 in if u <? 2 ^ 63 then u else u - 2 ^ 64.

(** [match_literal] (src/bmd/parsing/parse.cpp:873-907). *)
Definition match_literal (st : pstate) : outcome bmd_error (bmd_value * pstate) :=
  match ps_rest st with
  | [] => fail be_unexpected_eof br_decimal_literal st
  | _ :: _ =>
      let m := match_integer_literal (ps_rest st) in
      let rule := rule_of_literal (lm_type m) in
      match lm_status m with
      | lm_no_digits => fail be_invalid_integer_literal br_decimal_literal st
      | lm_no_digits_following_prefix => fail be_invalid_integer_literal rule (skip (lm_length m) st)
      | lm_ok =>
          if match nth_error (ps_rest st) (lm_length m) with
             | Some c => in_set c identifier_characters
             | None => false
             end
          then fail be_integer_suffix rule (skip (lm_length m) st)
          else
            match parse_integer_literal (firstn (lm_length m) (ps_rest st)) with
            | None => fail be_invalid_integer_literal br_decimal_literal st
            | Some v =>
                Ok (V_number (span_of (ps_pos st) (Z.of_nat (lm_length m))) (to_int64 v) (lm_type m),
                    skip (lm_length m) st)
            end
      end
  end.

(** [match_value] (src/bmd/parsing/parse.cpp:855-871). *)
Definition match_value (st : pstate) : outcome bmd_error (bmd_value * pstate) :=
  if peek_if is_decimal_digit st then match_literal st
  else
    let* '(t, s, st') := match_name st in
    Ok (V_identifier s t, st').

(** Whether an argument of that name is in the map (src/bmd/parsing/parse.cpp:489-490). *)
Definition has_argument (k : text) (args : list (text * bmd_value)) : bool :=
  existsb (fun a => text_eqb (fst a) k) args.

(** Result of a loop: [None] when it did not end within the fuel (e.g. src/bmd/parsing/parse.cpp:325). *)
Definition bind_loop {E A B} (x : option (outcome E A)) (f : A -> option (outcome E B))
  : option (outcome E B) :=
  match x with
  | None => None
  | Some (Ok a) => f a
  | Some (Err e) => Some (Err e)
  | Some Abort => Some Abort
  | Some UB => Some UB
  end.
Notation "'let&' p ':=' m 'in' k" := (bind_loop m (fun p => k))
  (at level 200, p pattern, m at level 100, k at level 200, right associativity) : outcome_scope.

(** The loop of [match_arguments] (src/bmd/parsing/parse.cpp:458-506). *)
Fixpoint arguments_loop (fuel : nat) (args : list (text * bmd_value)) (st : pstate)
  : option (outcome bmd_error (list (text * bmd_value) * pstate)) :=
  match fuel with
  | O => None
  | S fuel' =>
      let& (_, st1) := Some (match_word_blank st) in
      let& (key, _, st2) := Some (match_name st1) in
      let& (_, st3) := Some (match_word_blank st2) in
      let& st4 := Some (expect "=" br_argument st3) in
      let& (_, st5) := Some (match_word_blank st4) in
      let& (value, st6) := Some (match_value st5) in
      if has_argument key args then Some (fail be_duplicate_argument br_argument st1)
      else
        let args' := args ++ [(key, value)] in
        let& (_, st7) := Some (match_word_blank st6) in
        if eof st7 then Some (fail be_unexpected_eof br_argument st7)
        else if peek_char "," st7 then
          let& st8 := Some (expect "," br_argument st7) in
          arguments_loop fuel' args' st8
        else
          let& st8 := Some (expect "]" br_arguments st7) in
          Some (Ok (args', st8))
  end.

(** [match_arguments] (src/bmd/parsing/parse.cpp:452-507); every turn of the loop consumes a character
    ([arguments_end] in BmdParseProofs.v). *)
Definition match_arguments (st : pstate) : option (outcome bmd_error (list (text * bmd_value) * pstate)) :=
  let& st' := Some (expect "[" br_arguments st) in
  arguments_loop (S (length (ps_rest st'))) [] st'.

(** [match_empty_block] (src/bmd/parsing/parse.cpp:579-588). It is called before the opening brace. *)
Definition match_empty_block (st : pstate) : outcome bmd_error (option bmd_node * pstate) :=
  let* '(_, st') := match_blank br_block st in
  match expect "}" br_block st' with
  | Ok st'' => Ok (None, st'')
  | _ => fail be_directive_must_be_empty br_block st'
  end.

(** [match_inside_block] (src/bmd/parsing/parse.cpp:674-700): [match_content] runs on the content of the
    block as if that were the whole source. *)
Definition match_inside_block {A} (match_content : pstate -> option (outcome bmd_error (A * pstate)))
  (st : pstate) : option (outcome bmd_error (A * pstate)) :=
  let inner_pos := to_right 1 (ps_pos st) in
  let& (_, content, st') := Some (match_raw_block_impl st) in
  let& (a, inner) := match_content (PState inner_pos content) in
  if eof inner then Some (Ok (a, PState (to_right 1 (ps_pos inner)) (ps_rest st')))
  else Some Abort.

(** [break_paragraph] (src/bmd/parsing/parse.cpp:311-323): the new [elements], [paragraph_elements] and
    [pos_before_paragraph], when the parser is at [p]. *)
Definition break_paragraph (elements paragraph : list bmd_node) (before p : position)
  : list bmd_node * list bmd_node * position :=
  match paragraph with
  | [] => (elements, [], before)
  | _ :: _ =>
      (elements ++ [B_list (span_of before (po_begin p - po_begin before)) paragraph], [], p)
  end.

(** The recursive part of the parser.  Every function takes some fuel and yields [None] when it is used up;
    each turn of a loop and each call use one. *)

(** The loop and the end of [match_content] (src/bmd/parsing/parse.cpp:301-377). *)
Fixpoint content_loop (fuel : nat) (initial before : position) (elements paragraph : list bmd_node)
  (st : pstate) {struct fuel} : option (outcome bmd_error (bmd_node * pstate)) :=
  match fuel with
  | O => None
  | S fuel' =>
      if eof st then
        let '(elements', _, _) := break_paragraph elements paragraph before (ps_pos st) in
        Some (Ok (B_list (span_of initial (po_begin (ps_pos st) - po_begin initial)) elements', st))
      else if peek_if is_space st then Some Abort
      else
        let& (elements', paragraph', before', st') :=
          (if peek_possible_directive st then
             let& (d, st') := match_directive fuel' ct_block st in
             match d with
             | B_directive _ t _ _ _ =>
                 match environment_of t with
                 | env_list | env_meta => Some (fail be_directive_not_allowed br_content st')
                 | env_content =>
                     let '(elements', paragraph', before') :=
                       break_paragraph elements paragraph before (ps_pos st') in
                     Some (Ok (elements' ++ [d], paragraph', before', st'))
                 | env_paragraph => Some (Ok (elements, paragraph ++ [d], before, st'))
                 end
             | _ => Some Abort
             end
           else
             let& (t, st') := Some (match_text st) in
             match t with
             | None => Some Abort
             | Some n => Some (Ok (elements, paragraph ++ [n], before, st'))
             end) in
        let& (b, st'') := Some (match_blank br_content st') in
        let '(elements'', paragraph'', before'') :=
          if bl_break b then break_paragraph elements' paragraph' before' (ps_pos st'')
          else (elements', paragraph', before') in
        content_loop fuel' initial before'' elements'' paragraph'' st''
  end

(** The loop and the end of [match_paragraph] (src/bmd/parsing/parse.cpp:381-410). *)
with paragraph_loop (fuel : nat) (initial : position) (elements : list bmd_node) (st : pstate)
  {struct fuel} : option (outcome bmd_error (bmd_node * pstate)) :=
  match fuel with
  | O => None
  | S fuel' =>
      let finish (st : pstate) :=
        Some (Ok (B_list (span_of initial (po_begin (ps_pos st) - po_begin initial)) elements, st)) in
      if eof st then finish st
      else
        let& (stop, st1) :=
          (if peek_if is_space st then
             let& (b, st1) := Some (match_word_blank st) in
             Some (Ok (bl_length b =? 0, st1))
           else Some (Ok (false, st))) in
        if stop : bool then finish st1
        else
          let& (t, st2) := Some (match_text st1) in
          match t with
          | Some n => paragraph_loop fuel' initial (elements ++ [n]) st2
          | None =>
              if peek_possible_directive st2 then
                let& (d, st3) := match_directive fuel' ct_span st2 in
                paragraph_loop fuel' initial (elements ++ [d]) st3
              else paragraph_loop fuel' initial elements st2
          end
  end

(** The loop and the end of [match_directives_inside_raw_block] (src/bmd/parsing/parse.cpp:640-657). *)
with directives_loop (fuel : nat) (type : content_type) (initial : position) (directives : list bmd_node)
  (st : pstate) {struct fuel} : option (outcome bmd_error (bmd_node * pstate)) :=
  match fuel with
  | O => None
  | S fuel' =>
      if eof st then
        Some (Ok (B_list (span_of initial (po_begin (ps_pos st) - po_begin initial)) directives, st))
      else if negb (peek_possible_directive st) then Some (fail be_text_in_directive_list br_block st)
      else
        let& (d, st1) := match_directive fuel' type st in
        let& (_, st2) := Some (match_blank br_block st1) in
        directives_loop fuel' type initial (directives ++ [d]) st2
  end

(** [match_directive] (src/bmd/parsing/parse.cpp:412-450). *)
with match_directive (fuel : nat) (context : content_type) (st : pstate) {struct fuel}
  : option (outcome bmd_error (bmd_node * pstate)) :=
  match fuel with
  | O => None
  | S fuel' =>
      if negb (allows_directives context) then Some Abort
      else
        let& st1 := Some (expect ch_backslash br_directive st) in
        let& (id, _, st2) := Some (match_name st1) in
        match directive_type_by_id id with
        | UB => Some UB
        | Abort | Err _ => Some Abort
        | Ok None =>
            Some (let* p := to_left (length id) (ps_pos st2) in
                  Err (Bmd_Error be_invalid_directive br_directive p))
        | Ok (Some t) =>
            if negb (allowed_in t context) then Some (fail be_directive_not_allowed br_directive st2)
            else
              let& (args, st3) :=
                (if peek_char "[" st2 then match_arguments st2 else Some (Ok ([], st2))) in
              let& (block, st4) :=
                (if peek_char "{" st3 then match_directive_content fuel' (content_type_of t) st3
                 else Some (Ok (None, st3))) in
              Some (Ok (B_directive (span_of (ps_pos st) (po_begin (ps_pos st4) - po_begin (ps_pos st)))
                                    t id args block, st4))
        end
  end

(** [match_directive_content] (src/bmd/parsing/parse.cpp:559-577), with
    [match_span_inside_raw_block] (590-615), [match_block_inside_raw_block] (617-625) and the beginning of
    [match_directives_inside_raw_block] (627-640). *)
with match_directive_content (fuel : nat) (type : content_type) (st : pstate) {struct fuel}
  : option (outcome bmd_error (option bmd_node * pstate)) :=
  match fuel with
  | O => None
  | S fuel' =>
      match type with
      | ct_nothing => Some (match_empty_block st)
      | ct_text_span | ct_span =>
          match_inside_block
            (fun st =>
               let directives_allowed := allows_directives type in
               let& (b, st1) := Some (match_blank br_block st) in
               if bl_break b then Some (fail be_paragraph_break_in_span br_block st1)
               else
                 let& (n, st2) :=
                   (if directives_allowed then
                      let& (n, st2) := paragraph_loop fuel' (ps_pos st1) [] st1 in Some (Ok (Some n, st2))
                    else Some (match_text st1)) in
                 if peek_if is_space st2 then Some (fail be_paragraph_break_in_span br_block st2)
                 else if negb directives_allowed && peek_possible_directive st2 then
                   Some (fail be_directive_in_text_span br_block st2)
                 else Some (Ok (n, st2))) st
      | ct_block =>
          match_inside_block
            (fun st =>
               let& (_, st1) := Some (match_blank br_block st) in
               let& (n, st2) := content_loop fuel' (ps_pos st1) (ps_pos st1) [] [] st1 in
               Some (Ok (Some n, st2))) st
      | ct_meta | ct_list =>
          match_inside_block
            (fun st =>
               let& (_, st1) := Some (match_blank br_block st) in
               let& (n, st2) := directives_loop fuel' type (ps_pos st) [] st1 in
               Some (Ok (Some n, st2))) st
      | ct_raw => Some (match_raw_block st)
      end
  end.

(** [match_document] and [parse] (src/bmd/parsing/parse.cpp:120-127, 291-301, 923-927): the root node, which
    is null for a blank document. *)
Definition bmd_parse (fuel : nat) (source : text) : option (outcome bmd_error (option bmd_node)) :=
  let st := PState (Position 0 0 0) source in
  let& (_, st1) := Some (match_blank br_blank st) in
  if eof st1 then Some (Ok None)
  else
    let& (n, _) := content_loop fuel (ps_pos st1) (ps_pos st1) [] [] st1 in
    Some (Ok (Some n)).

(** The fuel that is enough for a source on which the parser ends ([parse_fuel] in BmdParseProofs.v). *)
Definition parse_fuel (source : text) : nat := 3 * length source + 3.
