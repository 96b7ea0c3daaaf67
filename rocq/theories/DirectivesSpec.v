(** What the directive names of BMD are, stated on its own. *)
From Coq Require Import ZArith Ascii String List Bool.
From Verif Require Import Text Directives.
Import ListNotations.
Open Scope string_scope.
Open Scope list_scope.
Open Scope Z_scope.

(** The name of each directive in a document, such as [\b] for bold. *)
Definition name_of (t : directive_type) : text :=
  match t with
  | dt_bold => str "b"
  | dt_italic => str "i"
  | dt_underlined => str "u"
  | dt_strikethrough => str "s"
  | dt_deleted => str "del"
  | dt_quoted => str "q"
  | dt_keyboard => str "kbd"
  | dt_teletype => str "tt"
  | dt_subscript => str "sub"
  | dt_superscript => str "sup"
  | dt_line_break => str "br"
  | dt_horizontal_rule => str "hr"
  | dt_heading1 => str "h1"
  | dt_heading2 => str "h2"
  | dt_heading3 => str "h3"
  | dt_heading4 => str "h4"
  | dt_heading5 => str "h5"
  | dt_heading6 => str "h6"
  | dt_ordered_list => str "ol"
  | dt_unordered_list => str "ul"
  | dt_item => str "item"
  | dt_code => str "c"
  | dt_code_block => str "codeblock"
  | dt_instruction => str "instruction"
  | dt_note => str "note"
  | dt_meta => str "meta"
  | dt_title => str "title"
  | dt_bms_function => str "bmsfun"
  | dt_c_equivalent => str "cequiv"
  end.

(** [a] comes before [b] in the dictionary: [b] continues [a], or at the first difference the character
    of [a] is the smaller. *)
Definition precedes (a b : text) : Prop :=
  exists p : text,
    (a = p /\ exists y q, b = p ++ y :: q) \/
    (exists x a' y b', a = p ++ x :: a' /\ b = p ++ y :: b' /\ code x < code y).

(** A name that comes after every known one. *)
Definition beyond_all (id : text) : Prop := forall t, precedes (name_of t) id.
