(** Highlighted code strings and attempts. Models src/bmd/codegen/code_span_type.hpp,
    src/bmd/codegen/code_string.hpp and the scope guards of src/bmd/codegen/generator_base.hpp.
    Sizes are unbounded naturals: a [Size] counts bytes that are in memory. *)
From Coq Require Import Ascii List Bool Arith.
From Verif Require Import Prelude Text.
Import ListNotations.

(** [Code_Span_Type] (src/bmd/codegen/code_span_type.hpp:13-25). *)
Inductive span_type : Type :=
| sp_identifier | sp_type_name | sp_bracket | sp_number | sp_string | sp_comment | sp_operation
| sp_punctuation | sp_keyword | sp_boolean_literal | sp_error.

(** [Internal_Span] and [Code_String_Span] (src/bmd/codegen/code_string.hpp:16-20, 35-39). *)
Record span : Type := Span { s_begin : nat; s_length : nat; s_type : span_type }.

(** [m_text] and [m_spans] (src/bmd/codegen/code_string.hpp:41-42). *)
Record code_string : Type := Code { cs_text : text; cs_spans : list span }.

(** The constructor (src/bmd/codegen/code_string.hpp:45-49). *)
Definition empty_code : code_string := Code [] [].

(** [Length] (src/bmd/codegen/code_string.hpp:26-29). *)
Record code_length : Type := Length { text_length : nat; span_count : nat }.

(** [get_length] (src/bmd/codegen/code_string.hpp:51-54). *)
Definition get_length (s : code_string) : code_length :=
  Length (length (cs_text s)) (length (cs_spans s)).

(** [std::vector::resize] (used in src/bmd/codegen/code_string.hpp:63-64): drops elements from the end, or
    appends value-initialised ones. *)
Definition vector_resize {A} (zero : A) (n : nat) (l : list A) : list A :=
  firstn n l ++ repeat zero (n - length l).

(** [resize] (src/bmd/codegen/code_string.hpp:61-65). *)
Definition resize (n : code_length) (s : code_string) : code_string :=
  Code (vector_resize "000"%char (text_length n) (cs_text s))
       (vector_resize (Span 0 0 sp_identifier) (span_count n) (cs_spans s)).

(** [append(std::string_view)] (src/bmd/codegen/code_string.hpp:69-72). *)
Definition append_text (t : text) (s : code_string) : code_string :=
  Code (cs_text s ++ t) (cs_spans s).
(** [append(char)] (src/bmd/codegen/code_string.hpp:76-79). *)
Definition append_char (c : ascii) (s : code_string) : code_string :=
  Code (cs_text s ++ [c]) (cs_spans s).
(** [append(Size, char)] (src/bmd/codegen/code_string.hpp:83-86). *)
Definition append_fill (n : nat) (c : ascii) (s : code_string) : code_string :=
  Code (cs_text s ++ repeat c n) (cs_spans s).
(** [append(std::string_view, Code_Span_Type)] (src/bmd/codegen/code_string.hpp:88-93). *)
Definition append_span {E} (t : text) (k : span_type) (s : code_string) : outcome E code_string :=
  assert_then (match t with [] => false | _ => true end)
    (Ok (Code (cs_text s ++ t) (cs_spans s ++ [Span (length (cs_text s)) (length t) k]))).
(** [append(char, Code_Span_Type)] (src/bmd/codegen/code_string.hpp:95-99). *)
Definition append_char_span (c : ascii) (k : span_type) (s : code_string) : code_string :=
  Code (cs_text s ++ [c]) (cs_spans s ++ [Span (length (cs_text s)) 1 k]).

(** What a generator does to its output: appends, and the scopes opened by [Scoped_Attempt] (58-83) and
    [Scoped_Parenthesization] (14-36) of src/bmd/codegen/generator_base.hpp.  [A_attempt body c] is a scope
    holding an attempt in which [body] happens, and at whose end [commit] has been called iff [c]: leaving
    the scope early, by [return] or otherwise, is a shorter [body] with [c = false]. *)
Inductive action : Type :=
| A_text (t : text)
| A_char (c : ascii)
| A_fill (n : nat) (c : ascii)
| A_span (t : text) (k : span_type)
| A_char_span (c : ascii) (k : span_type)
| A_attempt (body : list action) (committed : bool)
| A_parens (body : list action).

(** Performing an action; the flag is [false] when an assertion failed, that is, an exception is being
    propagated. Then no further action happens, but the destructors of open scopes do
    (src/bmd/codegen/generator_base.hpp:30-35, 72-77). *)
Fixpoint act (a : action) (s : code_string) : code_string * bool :=
  let acts := fix acts (l : list action) (s : code_string) : code_string * bool :=
    match l with
    | [] => (s, true)
    | x :: r => let '(s', ok) := act x s in if ok then acts r s' else (s', false)
    end in
  match a with
  | A_text t => (append_text t s, true)
  | A_char c => (append_char c s, true)
  | A_fill n c => (append_fill n c s, true)
  | A_span t k =>
      match append_span (E := unit) t k s with
      | Ok s' => (s', true)
      | _ => (s, false)
      end
  | A_char_span c k => (append_char_span c k s, true)
  | A_attempt body committed =>
      let '(s', ok) := acts body s in
      (if ok && committed then s' else resize (get_length s) s', ok)
  | A_parens body =>
      let '(s', ok) := acts body (append_char_span "("%char sp_bracket s) in
      (append_char_span ")"%char sp_bracket s', ok)
  end.

(** A sequence of actions. *)
Fixpoint acts (l : list action) (s : code_string) : code_string * bool :=
  match l with
  | [] => (s, true)
  | x :: r => let '(s', ok) := act x s in if ok then acts r s' else (s', false)
  end.
