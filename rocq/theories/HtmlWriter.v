(** The HTML writer. Models src/bmd/html/html_writer.hpp and src/bmd/html/html_writer.cpp.
    The token consumer (src/bmd/html/token_consumer.hpp:14-18) is the list of the writes it received; the
    results of its [write] functions are ignored by the writer. *)
From Coq Require Import ZArith Ascii String List Bool.
From Verif Require Import Prelude Text Literals.
Import ListNotations.
Open Scope string_scope.
Open Scope list_scope.
Open Scope Z_scope.

(** [Formatting_Style] (src/bmd/html/html_writer.hpp:23-36). *)
Inductive formatting_style : Type := fs_pre | fs_in_line | fs_flat | fs_block.

(** Comparison of styles, as in src/bmd/html/html_writer.cpp:29. *)
Definition style_is_pre (s : formatting_style) : bool :=
  match s with fs_pre => true | _ => false end.
(** Comparison of styles, as in src/bmd/html/html_writer.cpp:110. *)
Definition style_is_block (s : formatting_style) : bool :=
  match s with fs_block => true | _ => false end.

(** [is_block_like] (src/bmd/html/html_writer.hpp:38-41). *)
Definition is_block_like (s : formatting_style) : bool :=
  match s with fs_flat | fs_block => true | fs_pre | fs_in_line => false end.

(** [HTML_Token_Type] (src/bmd/html/html_writer.hpp:43-55). *)
Inductive html_token_type : Type :=
| ht_whitespace | ht_preamble | ht_comment | ht_tag_identifier | ht_tag_bracket | ht_attribute_key
| ht_attribute_equal | ht_attribute_comma | ht_attribute_quote | ht_attribute_value | ht_inner_text.

(** One call of [HTML_Token_Consumer::write] (src/bmd/html/token_consumer.hpp:15-17); the count of a
    repeated character is a [Size]. *)
Inductive chunk : Type :=
| Chunk (t : text) (k : html_token_type)
| Fill (c : ascii) (n : Z) (k : html_token_type).

(** The characters such a call asks for (src/bmd/html/token_consumer.hpp:15-17). *)
Definition chunk_text (c : chunk) : text :=
  match c with
  | Chunk t _ => t
  | Fill c n _ => repeat c (Z.to_nat n)
  end.

(** [Tag_Properties] (src/bmd/html/html_writer.hpp:100-103). *)
Record tag_properties : Type := Tag_Properties { tp_id : text; tp_style : formatting_style }.

(** [HTML_Writer::State] (src/bmd/html/html_writer.hpp:124). *)
Inductive writer_state : Type := ws_initial | ws_attributes | ws_normal | ws_new_line.

(** [HTML_Writer] (src/bmd/html/html_writer.hpp:116-126). [m_depth] counts calls and does not wrap;
    [m_indent_depth] is a [Size] that wraps. *)
Record writer : Type := Writer {
  w_out : list chunk;
  w_width : Z;
  w_state : writer_state;
  w_depth : nat;
  w_indent : Z
}.

(** [Size] arithmetic (src/common/config.hpp): modulo 2^64. *)
Definition wrap64 (z : Z) : Z := z mod 2 ^ 64.

(** The constructor (src/bmd/html/html_writer.cpp:10-14). *)
Definition new_writer (width : Z) : writer := Writer [] width ws_initial 0 0.

(** [m_out.write] (src/bmd/html/html_writer.cpp:20). *)
Definition emit (c : chunk) (w : writer) : writer :=
  Writer (w_out w ++ [c]) (w_width w) (w_state w) (w_depth w) (w_indent w).
(** Several [m_out.write] (src/bmd/html/html_writer.cpp:75-77). *)
Definition emits (l : list chunk) (w : writer) : writer :=
  Writer (w_out w ++ l) (w_width w) (w_state w) (w_depth w) (w_indent w).
(** [m_state = s] (src/bmd/html/html_writer.cpp:21). *)
Definition set_state (s : writer_state) (w : writer) : writer :=
  Writer (w_out w) (w_width w) s (w_depth w) (w_indent w).
(** [m_depth = d] (src/bmd/html/html_writer.cpp:114, 150). *)
Definition set_depth (d : nat) (w : writer) : writer :=
  Writer (w_out w) (w_width w) (w_state w) d (w_indent w).
(** [m_indent_depth = d] (src/bmd/html/html_writer.cpp:111, 140). *)
Definition set_indent (d : Z) (w : writer) : writer :=
  Writer (w_out w) (w_width w) (w_state w) (w_depth w) d.

(** [m_state == State::normal || m_state == State::new_line] (src/bmd/html/html_writer.cpp:85). *)
Definition in_content (w : writer) : bool :=
  match w_state w with ws_normal | ws_new_line => true | _ => false end.
(** [m_state == State::attributes] (src/bmd/html/html_writer.cpp:202). *)
Definition in_attributes (w : writer) : bool :=
  match w_state w with ws_attributes => true | _ => false end.
(** [m_state == State::initial] (src/bmd/html/html_writer.cpp:73). *)
Definition in_initial (w : writer) : bool :=
  match w_state w with ws_initial => true | _ => false end.
(** [m_state == State::new_line] (src/bmd/html/html_writer.cpp:26). *)
Definition in_new_line (w : writer) : bool :=
  match w_state w with ws_new_line => true | _ => false end.

(** [is_html_identifier] (src/common/parse.hpp:120-125, 138-141). *)
Definition is_html_identifier (s : text) : bool :=
  match s with
  | [] => false
  | c :: _ => negb (is_decimal_digit c) && forallb (fun c => in_set c html_identifier_characters) s
  end.

(** [requires_quotes_in_attribute] (src/bmd/html/html_writer.hpp:15-18). *)
Definition requires_quotes_in_attribute (v : text) : bool :=
  existsb (fun c => in_set c (ch_quote :: str "/'`=<> ")) v.

(** The chunks of [write_escaped_text] (src/bmd/html/html_writer.cpp:39-57). [snippet] holds the characters
    since the last bracket; the last snippet is only written when it is not empty, because the loop ends on
    an empty rest. *)
Fixpoint escape (snippet t : text) : list chunk :=
  match t with
  | [] => match snippet with [] => [] | _ => [Chunk snippet ht_inner_text] end
  | c :: r =>
      if char_eqb c "<" then
        Chunk snippet ht_inner_text :: Chunk (str "&lt;") ht_inner_text :: escape [] r
      else if char_eqb c ">" then
        Chunk snippet ht_inner_text :: Chunk (str "&gt;") ht_inner_text :: escape [] r
      else escape (snippet ++ [c]) r
  end.

(** The lines of [write_inner_text] (src/bmd/html/html_writer.cpp:182-195), each with whether a line break
    follows; an empty rest is not a line. *)
Fixpoint text_lines (line t : text) : list (text * bool) :=
  match t with
  | [] => match line with [] => [] | _ => [(line, false)] end
  | c :: r =>
      if char_eqb c ch_newline then (line, true) :: text_lines [] r
      else text_lines (line ++ [c]) r
  end.

(** A position in the source, without the file name (src/common/source_position.hpp:12-18, 37-38). *)
Record source_span : Type := Source_Span {
  sp_line : Z; sp_column : Z; sp_begin : Z; sp_length : Z
}.

Section Writer.
(** The errors of the surrounding code; the writer itself returns none. *)
Context {E : Type}.

(** [break_line] (src/bmd/html/html_writer.cpp:16-22). *)
Definition break_line (w : writer) : outcome E writer :=
  assert_then (negb (in_attributes w))
    (Ok (set_state ws_new_line (emit (Chunk [ch_newline] ht_whitespace) w))).

(** [if (is_block_like(style)) break_line();] (src/bmd/html/html_writer.cpp:92-94). *)
Definition break_if_block (s : formatting_style) (w : writer) : outcome E writer :=
  if is_block_like s then break_line w else Ok w.

(** [indent] (src/bmd/html/html_writer.cpp:24-33). *)
Definition indent (s : formatting_style) (w : writer) : outcome E writer :=
  let* w := if negb (in_new_line w) && is_block_like s then break_line w else Ok w in
  let w := if in_new_line w && negb (style_is_pre s)
           then emit (Fill " " (wrap64 (w_indent w * w_width w)) ht_whitespace) w else w in
  Ok (set_state ws_normal w).

(** [write_escaped_text] (src/bmd/html/html_writer.cpp:35-59). *)
Definition write_escaped_text (t : text) (w : writer) : outcome E writer :=
  assert_then (in_content w) (Ok (set_state ws_normal (emits (escape [] t) w))).

(** [write_whitespace] (src/bmd/html/html_writer.cpp:61-69). *)
Definition write_whitespace (c : ascii) (n : Z) (w : writer) : outcome E writer :=
  assert_then (negb (in_attributes w) && negb (in_initial w))
    (assert_then (is_space c) (Ok (set_state ws_normal (emit (Fill c n ht_whitespace) w)))).

(** [write_preamble] (src/bmd/html/html_writer.cpp:71-81). *)
Definition write_preamble (w : writer) : outcome E writer :=
  assert_then (in_initial w)
    (break_line (emits [Chunk (str "<!") ht_tag_bracket; Chunk (str "DOCTYPE html") ht_preamble;
                        Chunk (str ">") ht_tag_bracket] w)).

(** [write_empty_tag] (src/bmd/html/html_writer.cpp:83-97). *)
Definition write_empty_tag (p : tag_properties) (w : writer) : outcome E writer :=
  assert_then (in_content w)
    (assert_then (is_html_identifier (tp_id p))
       (let* w := indent (tp_style p) w in
        break_if_block (tp_style p)
          (emits [Chunk (str "<") ht_tag_bracket; Chunk (tp_id p) ht_tag_identifier;
                  Chunk (str "/>") ht_tag_bracket] w))).

(** [begin_tag] (src/bmd/html/html_writer.cpp:99-117). *)
Definition begin_tag (p : tag_properties) (w : writer) : outcome E writer :=
  assert_then (in_content w)
    (assert_then (is_html_identifier (tp_id p))
       (let* w := indent (tp_style p) w in
        let* w := break_if_block (tp_style p)
          (emits [Chunk (str "<") ht_tag_bracket; Chunk (tp_id p) ht_tag_identifier;
                  Chunk (str ">") ht_tag_bracket] w) in
        let w := if style_is_block (tp_style p) then set_indent (wrap64 (w_indent w + 1)) w else w in
        Ok (set_depth (S (w_depth w)) w))).

(** [begin_tag_with_attributes] (src/bmd/html/html_writer.cpp:119-131). The name is written as a bracket
    there. *)
Definition begin_tag_with_attributes (p : tag_properties) (w : writer) : outcome E writer :=
  assert_then (in_content w)
    (assert_then (is_html_identifier (tp_id p))
       (let* w := indent (tp_style p) w in
        Ok (set_state ws_attributes
              (emits [Chunk (str "<") ht_tag_bracket; Chunk (tp_id p) ht_tag_bracket] w)))).

(** [end_tag] (src/bmd/html/html_writer.cpp:133-153). *)
Definition end_tag (p : tag_properties) (w : writer) : outcome E writer :=
  assert_then (in_content w)
    (assert_then (is_html_identifier (tp_id p))
       (assert_then (negb (Nat.eqb (w_depth w) 0))
          (let w := if style_is_block (tp_style p) then set_indent (wrap64 (w_indent w - 1)) w else w in
           let* w := indent (tp_style p) w in
           let* w := break_if_block (tp_style p)
             (emits [Chunk (str "</") ht_tag_bracket; Chunk (tp_id p) ht_tag_identifier;
                     Chunk (str ">") ht_tag_bracket] w) in
           Ok (set_depth (pred (w_depth w)) w)))).

(** [write_comment_tag] (src/bmd/html/html_writer.cpp:155-169). *)
Definition write_comment_tag (comment : text) (s : formatting_style) (w : writer) : outcome E writer :=
  assert_then (negb (in_attributes w))
    (assert_then (match find_text (str "-->") comment with None => true | Some _ => false end)
       (let* w := indent s w in
        break_if_block s
          (emits [Chunk (str "<!--") ht_tag_bracket; Chunk comment ht_comment;
                  Chunk (str "-->") ht_tag_bracket] w))).

(** The loop of [write_inner_text] (src/bmd/html/html_writer.cpp:182-195). *)
Fixpoint write_lines (s : formatting_style) (l : list (text * bool)) (w : writer) : outcome E writer :=
  match l with
  | [] => Ok w
  | (line, broken) :: r =>
      let* w := indent s w in
      let* w := write_escaped_text line w in
      let* w := if broken then break_line w else Ok w in
      write_lines s r w
  end.

(** [write_inner_text] (src/bmd/html/html_writer.cpp:171-198), with the number of lines. *)
Definition write_inner_text (t : text) (s : formatting_style) (w : writer) : outcome E (nat * writer) :=
  assert_then (in_content w)
    (if style_is_pre s then let* w := write_escaped_text t w in Ok (1%nat, w)
     else let* w := write_lines s (text_lines [] t) w in Ok (length (text_lines [] t), w)).

(** [write_attribute] (src/bmd/html/html_writer.cpp:200-221, src/bmd/html/html_writer.hpp:218-223). *)
Definition write_attribute (key value : text) (w : writer) : outcome E writer :=
  assert_then (in_attributes w)
    (assert_then (is_html_identifier key)
       (Ok (emits (Chunk (str " ") ht_whitespace :: Chunk key ht_attribute_key ::
                   match value with
                   | [] => []
                   | _ :: _ =>
                       Chunk (str "=") ht_attribute_equal ::
                       if requires_quotes_in_attribute value then
                         [Chunk [ch_quote] ht_attribute_quote; Chunk value ht_attribute_value;
                          Chunk [ch_quote] ht_attribute_quote]
                       else [Chunk value ht_attribute_value]
                   end) w))).

(** [end_attributes] (src/bmd/html/html_writer.cpp:223-242). *)
Definition end_attributes (s : formatting_style) (w : writer) : outcome E writer :=
  assert_then (in_attributes w)
    (let w := emit (Chunk (str ">") ht_tag_bracket) w in
     let* w := if is_block_like s then
                 let* w := break_line w in
                 Ok (if style_is_block s then set_indent (wrap64 (w_indent w + 1)) w else w)
               else Ok (set_state ws_normal w) in
     Ok (set_depth (S (w_depth w)) w)).

(** [end_empty_tag_attributes] (src/bmd/html/html_writer.cpp:244-256). *)
Definition end_empty_tag_attributes (s : formatting_style) (w : writer) : outcome E writer :=
  assert_then (in_attributes w)
    (break_if_block s (set_state ws_normal (emit (Chunk (str "/>") ht_tag_bracket) w))).

(** [write_source_gap] (src/bmd/html/html_writer.cpp:258-282), with [end_column] and [end]
    (src/common/source_position.hpp:55-64). *)
Definition write_source_gap (first second : source_span) (s : formatting_style) (w : writer)
  : outcome E writer :=
  assert_then (negb (in_attributes w) && negb (in_initial w))
    (assert_then ((sp_line first <? sp_line second)
                  || ((sp_line first =? sp_line second) && (sp_column first <=? sp_column second)))
       (Ok (if style_is_pre s then
              if negb (sp_line first =? sp_line second) then
                let w := emit (Fill ch_newline (wrap64 (sp_line second - sp_line first))
                                    ht_whitespace) w in
                if negb (sp_column second =? 0) then emit (Fill " " (sp_column second) ht_whitespace) w
                else w
              else if negb (sp_column first =? sp_column second) then
                emit (Fill " " (wrap64 (sp_column second - wrap64 (sp_column first + sp_length first)))
                           ht_whitespace) w
              else w
            else if negb (wrap64 (sp_begin first + sp_length first) =? sp_begin second) then
              emit (Chunk (str " ") ht_whitespace) w
            else w))).

(** A public member function of the writer or of an [Attribute_Writer] of it
    (src/bmd/html/html_writer.hpp:59-98, 150-198). *)
Inductive call : Type :=
| W_preamble
| W_empty_tag (p : tag_properties)
| W_begin_tag (p : tag_properties)
| W_begin_attributes (p : tag_properties)
| W_attribute (key value : text)
| W_end_attributes (s : formatting_style)
| W_end_empty (s : formatting_style)
| W_end_tag (p : tag_properties)
| W_comment (c : text) (s : formatting_style)
| W_inner_text (t : text) (s : formatting_style)
| W_whitespace (c : ascii) (n : Z)
| W_source_gap (first second : source_span) (s : formatting_style).

(** Making a call (src/bmd/html/html_writer.hpp:218-241). The style of the attribute writer may differ from
    that of its tag here; the destructor of an attribute writer makes no call. *)
Definition make_call (c : call) (w : writer) : outcome E writer :=
  match c with
  | W_preamble => write_preamble w
  | W_empty_tag p => write_empty_tag p w
  | W_begin_tag p => begin_tag p w
  | W_begin_attributes p => begin_tag_with_attributes p w
  | W_attribute k v => write_attribute k v w
  | W_end_attributes s => end_attributes s w
  | W_end_empty s => end_empty_tag_attributes s w
  | W_end_tag p => end_tag p w
  | W_comment c s => write_comment_tag c s w
  | W_inner_text t s => let* '(_, w) := write_inner_text t s w in Ok w
  | W_whitespace c n => write_whitespace c n w
  | W_source_gap a b s => write_source_gap a b s w
  end.

(** A history of calls (src/bmd/html/html_writer.hpp:105-115). *)
Fixpoint make_calls (l : list call) (w : writer) : outcome E writer :=
  match l with
  | [] => Ok w
  | c :: r => let* w := make_call c w in make_calls r w
  end.

End Writer.

(** [is_done] (src/bmd/html/html_writer.hpp:144-148). *)
Definition is_done (w : writer) : bool :=
  (negb (match w_state w with ws_normal => true | _ => false end) || in_new_line w)
  && Nat.eqb (w_depth w) 0 && (w_indent w =? 0).

(** The characters the consumer received (src/bmd/html/token_consumer.hpp:14-18). *)
Definition written (w : writer) : text := flat_map chunk_text (w_out w).
