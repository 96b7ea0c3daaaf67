(** The directives of BMD documents. Models src/bmd/directive_type.hpp and
    src/bmd/enums.cpp:9-235. *)
From Coq Require Import ZArith Ascii String List Bool.
From Verif Require Import Prelude Text Literals HtmlWriter.
Import ListNotations.
Open Scope string_scope.
Open Scope list_scope.
Open Scope Z_scope.

(** [Directive_Type] (src/bmd/directive_type.hpp:12-44). *)
Inductive directive_type : Type :=
| dt_bold | dt_line_break | dt_deleted
| dt_heading1 | dt_heading2 | dt_heading3 | dt_heading4 | dt_heading5 | dt_heading6
| dt_horizontal_rule | dt_italic | dt_keyboard | dt_ordered_list | dt_quoted | dt_strikethrough
| dt_subscript | dt_superscript | dt_teletype | dt_underlined | dt_unordered_list
| dt_code | dt_code_block | dt_instruction | dt_item | dt_note | dt_meta | dt_title | dt_bms_function
| dt_c_equivalent.

(** [Directive_Content_Type] (src/bmd/directive_type.hpp:49-71). *)
Inductive content_type : Type :=
| ct_nothing | ct_text_span | ct_span | ct_block | ct_meta | ct_list | ct_raw.

(** [Directive_Environment] (src/bmd/directive_type.hpp:74-85). *)
Inductive environment : Type := env_paragraph | env_content | env_meta | env_list.

(** [directive_type_must_be_empty] (src/bmd/directive_type.hpp:96-104). *)
Definition must_be_empty (t : directive_type) : bool :=
  match t with dt_line_break | dt_horizontal_rule => true | _ => false end.

(** [directive_type_formatting_style] (src/bmd/enums.cpp:27-65); a value-initialised style is the first
    enumerator (src/bmd/html/html_writer.hpp:23-36). *)
Definition formatting_style_of (t : directive_type) : formatting_style :=
  match t with
  | dt_bold | dt_heading1 | dt_heading2 | dt_heading3 | dt_heading4 | dt_heading5 | dt_heading6
  | dt_line_break | dt_deleted | dt_instruction | dt_italic | dt_item | dt_keyboard | dt_quoted
  | dt_strikethrough | dt_subscript | dt_superscript | dt_teletype | dt_underlined | dt_code => fs_in_line
  | dt_code_block | dt_ordered_list | dt_note | dt_unordered_list => fs_block
  | dt_horizontal_rule => fs_flat
  | dt_meta | dt_title | dt_bms_function | dt_c_equivalent => fs_pre
  end.

(** [directive_type_content_type] (src/bmd/enums.cpp:67-108). *)
Definition content_type_of (t : directive_type) : content_type :=
  match t with
  | dt_line_break | dt_horizontal_rule => ct_nothing
  | dt_instruction | dt_bms_function | dt_c_equivalent | dt_title => ct_text_span
  | dt_bold | dt_code | dt_deleted
  | dt_heading1 | dt_heading2 | dt_heading3 | dt_heading4 | dt_heading5 | dt_heading6
  | dt_italic | dt_item | dt_keyboard | dt_quoted | dt_strikethrough | dt_subscript | dt_superscript
  | dt_teletype | dt_underlined => ct_span
  | dt_code_block => ct_raw
  | dt_note => ct_block
  | dt_ordered_list | dt_unordered_list => ct_list
  | dt_meta => ct_meta
  end.

(** [directive_type_environment] (src/bmd/enums.cpp:110-149). *)
Definition environment_of (t : directive_type) : environment :=
  match t with
  | dt_bold | dt_line_break | dt_deleted | dt_instruction | dt_italic | dt_keyboard | dt_quoted
  | dt_strikethrough | dt_subscript | dt_superscript | dt_teletype | dt_underlined | dt_code =>
      env_paragraph
  | dt_heading1 | dt_heading2 | dt_heading3 | dt_heading4 | dt_heading5 | dt_heading6
  | dt_code_block | dt_ordered_list | dt_meta | dt_note | dt_unordered_list | dt_horizontal_rule =>
      env_content
  | dt_title | dt_bms_function | dt_c_equivalent => env_meta
  | dt_item => env_list
  end.

(** [directive_content_allows_directives] (src/bmd/directive_type.hpp:117-121). *)
Definition allows_directives (c : content_type) : bool :=
  match c with ct_nothing | ct_text_span => false | _ => true end.

(** [directive_content_allows_only_directives] (src/bmd/directive_type.hpp:123-126). *)
Definition allows_only_directives (c : content_type) : bool :=
  match c with ct_meta | ct_list => true | _ => false end.

(** [directive_content_allows] (src/bmd/enums.cpp:9-25). *)
Definition content_allows (c : content_type) (e : environment) : bool :=
  match c with
  | ct_nothing | ct_text_span => false
  | ct_span => match e with env_paragraph => true | _ => false end
  | ct_block => match e with env_paragraph | env_content => true | _ => false end
  | ct_meta => match e with env_meta => true | _ => false end
  | ct_list => match e with env_list => true | _ => false end
  | ct_raw => true
  end.

(** [directive_type_allowed_in] (src/bmd/directive_type.hpp:136-139). *)
Definition allowed_in (t : directive_type) (c : content_type) : bool :=
  content_allows c (environment_of t).

(** [lookup] (src/bmd/enums.cpp:155-188). *)
Definition directive_table : list (text * directive_type) :=
  [ (str "b", dt_bold); (str "bmsfun", dt_bms_function); (str "br", dt_line_break); (str "c", dt_code);
    (str "cequiv", dt_c_equivalent); (str "codeblock", dt_code_block); (str "del", dt_deleted);
    (str "h1", dt_heading1); (str "h2", dt_heading2); (str "h3", dt_heading3); (str "h4", dt_heading4);
    (str "h5", dt_heading5); (str "h6", dt_heading6); (str "hr", dt_horizontal_rule);
    (str "i", dt_italic); (str "instruction", dt_instruction); (str "item", dt_item);
    (str "kbd", dt_keyboard); (str "meta", dt_meta); (str "note", dt_note); (str "ol", dt_ordered_list);
    (str "q", dt_quoted); (str "s", dt_strikethrough); (str "sub", dt_subscript);
    (str "sup", dt_superscript); (str "title", dt_title); (str "tt", dt_teletype);
    (str "u", dt_underlined); (str "ul", dt_unordered_list) ].

(** [operator<] of [std::string_view], by which the table is searched (src/bmd/enums.cpp:190,192):
    lexicographic, with characters compared as [unsigned char] ([std::char_traits<char>::lt]). *)
Fixpoint text_ltb (a b : text) : bool :=
  match a, b with
  | _, [] => false
  | [], _ :: _ => true
  | x :: a', y :: b' =>
      if code x <? code y then true else if code y <? code x then false else text_ltb a' b'
  end.

(** [std::ranges::lower_bound] (src/bmd/enums.cpp:192) in the range of [len] elements from index [first]
    on: binary search by halving [len].  [None] is a loop that did not end within the fuel. *)
Fixpoint lower_bound (fuel : nat) (table : list (text * directive_type)) (id : text)
  (first len : nat) : option nat :=
  match fuel with
  | O => None
  | S fuel' =>
      match len with
      | O => Some first
      | S _ =>
          let half := Nat.div2 len in
          match nth_error table (first + half) with
          | Some (middle, _) =>
              if text_ltb middle id
              then lower_bound fuel' table id (S (first + half)) (len - half - 1)
              else lower_bound fuel' table id first half
          | None => None
          end
      end
  end.

(** [directive_type_by_id] in a given table (src/bmd/enums.cpp:192-196): the iterator is dereferenced
    without a check that it is not the end. *)
Definition lookup_id (table : list (text * directive_type)) (id : text)
  : option (outcome unit (option directive_type)) :=
  match lower_bound (S (length table)) table id 0 (length table) with
  | None => None
  | Some i =>
      Some (match nth_error table i with
            | None => UB
            | Some (found, t) => if text_eqb found id then Ok (Some t) else Ok None
            end)
  end.

(** [directive_type_by_id] (src/bmd/enums.cpp:151-197). The search always ends ([lookup_id_ends] in
    DirectivesProofs.v), so that the other case does not arise. *)
Definition directive_type_by_id (id : text) : outcome unit (option directive_type) :=
  match lookup_id directive_table id with
  | Some r => r
  | None => Abort
  end.

(** [directive_type_tag] (src/bmd/enums.cpp:199-235). *)
Definition directive_tag (t : directive_type) : text :=
  match t with
  | dt_bold => str "b"
  | dt_line_break => str "br"
  | dt_deleted => str "del"
  | dt_heading1 => str "h1"
  | dt_heading2 => str "h2"
  | dt_heading3 => str "h3"
  | dt_heading4 => str "h4"
  | dt_heading5 => str "h5"
  | dt_heading6 => str "h6"
  | dt_horizontal_rule => str "hr"
  | dt_italic => str "i"
  | dt_keyboard => str "kbd"
  | dt_ordered_list => str "ol"
  | dt_quoted => str "q"
  | dt_strikethrough => str "s"
  | dt_subscript => str "sub"
  | dt_superscript => str "sub"
  | dt_teletype => str "tt"
  | dt_underlined => str "u"
  | dt_unordered_list => str "ul"
  | dt_code => str "code"
  | dt_code_block => str "div"
  | dt_instruction => str "span"
  | dt_note => str "div"
  | dt_meta => str "head"
  | dt_title => str "title"
  | dt_bms_function | dt_c_equivalent | dt_item => []
  end.

(** [directive_type_is_html_passthrough] (src/bmd/directive_type.hpp:155-158): the enumerators up to
    [unordered_list]. *)
Definition is_html_passthrough (t : directive_type) : bool :=
  match t with
  | dt_code | dt_code_block | dt_instruction | dt_item | dt_note | dt_meta | dt_title | dt_bms_function
  | dt_c_equivalent => false
  | _ => true
  end.
