(** What HTML text means: the tokenizer of the HTML standard (13.2.5), reduced to tags, attributes,
    comments and declarations. It is independent of the writer (except for the types of
    calls, at the end). Left out: character references (see
    [unescape]), raw text elements, lower-casing of names, null characters. *)
From Coq Require Import ZArith Ascii String List Bool.
From Verif Require Import Text HtmlWriter.
Import ListNotations.
Open Scope string_scope.
Open Scope list_scope.

(** What the tokenizer reports. *)
Inductive event : Type :=
| E_char (c : ascii)
| E_open (name : text) (attributes : list (text * text)) (self_closing : bool)
| E_close (name : text)
| E_comment (c : text)
| E_declaration (d : text).

(** A tag being read. *)
Record tag : Type := Tag { t_end : bool; t_name : text; t_attributes : list (text * text) }.

(** A tag is complete. *)
Definition finish (t : tag) (self_closing : bool) : event :=
  if t_end t then E_close (t_name t) else E_open (t_name t) (t_attributes t) self_closing.

Definition add_attribute (t : tag) (k v : text) : tag :=
  Tag (t_end t) (t_name t) (t_attributes t ++ [(k, v)]).

(** The states of the tokenizer. *)
Inductive scan_state : Type :=
| Data
| Tag_open
| End_tag_open
| Tag_name (t : tag)
| Before_attribute_name (t : tag)
| Attribute_name (t : tag) (k : text)
| After_attribute_name (t : tag) (k : text)
| Before_attribute_value (t : tag) (k : text)
| Value_double_quoted (t : tag) (k v : text)
| Value_single_quoted (t : tag) (k v : text)
| Value_unquoted (t : tag) (k v : text)
| After_value_quoted (t : tag)
| Self_closing (t : tag)
| Markup_declaration_open
| Markup_declaration_dash
| Declaration (d : text)
| Comment_start
| Comment_start_dash
| Comment (c : text)
| Comment_end_dash (c : text)
| Comment_end (c : text)
| Comment_end_bang (c : text).

Definition is_alpha (c : ascii) : bool :=
  in_set c (str "abcdefghijklmnopqrstuvwxyzABCDEFGHIJKLMNOPQRSTUVWXYZ").

(** Tab, line feed, form feed, carriage return and space. *)
Definition is_html_space (c : ascii) : bool :=
  in_set c ["009"%char; "010"%char; "012"%char; "013"%char; " "%char].

Definition before_attribute_name (t : tag) (c : ascii) : scan_state * list event :=
  if is_html_space c then (Before_attribute_name t, [])
  else if char_eqb c "/" then (Self_closing t, [])
  else if char_eqb c ">" then (Data, [finish t false])
  else (Attribute_name t [c], []).

Definition comment (acc : text) (c : ascii) : scan_state * list event :=
  if char_eqb c "-" then (Comment_end_dash acc, []) else (Comment (acc ++ [c]), []).

Definition data (c : ascii) : scan_state * list event :=
  if char_eqb c "<" then (Tag_open, []) else (Data, [E_char c]).

Definition declaration (acc : text) (c : ascii) : scan_state * list event :=
  if char_eqb c ">" then (Data, [E_declaration acc]) else (Declaration (acc ++ [c]), []).

(** One character. *)
Definition scan_char (s : scan_state) (c : ascii) : scan_state * list event :=
  match s with
  | Data => data c
  | Tag_open =>
      if char_eqb c "!" then (Markup_declaration_open, [])
      else if char_eqb c "/" then (End_tag_open, [])
      else if is_alpha c then (Tag_name (Tag false [c] []), [])
      else if char_eqb c "?" then (Declaration [c], [])
      else let '(s', e) := data c in (s', E_char "<" :: e)
  | End_tag_open =>
      if is_alpha c then (Tag_name (Tag true [c] []), [])
      else if char_eqb c ">" then (Data, [])
      else declaration [] c
  | Tag_name t =>
      if is_html_space c then (Before_attribute_name t, [])
      else if char_eqb c "/" then (Self_closing t, [])
      else if char_eqb c ">" then (Data, [finish t false])
      else (Tag_name (Tag (t_end t) (t_name t ++ [c]) (t_attributes t)), [])
  | Before_attribute_name t => before_attribute_name t c
  | Attribute_name t k =>
      if is_html_space c then (After_attribute_name t k, [])
      else if char_eqb c "/" then (Self_closing (add_attribute t k []), [])
      else if char_eqb c ">" then (Data, [finish (add_attribute t k []) false])
      else if char_eqb c "=" then (Before_attribute_value t k, [])
      else (Attribute_name t (k ++ [c]), [])
  | After_attribute_name t k =>
      if is_html_space c then (After_attribute_name t k, [])
      else if char_eqb c "/" then (Self_closing (add_attribute t k []), [])
      else if char_eqb c "=" then (Before_attribute_value t k, [])
      else if char_eqb c ">" then (Data, [finish (add_attribute t k []) false])
      else (Attribute_name (add_attribute t k []) [c], [])
  | Before_attribute_value t k =>
      if is_html_space c then (Before_attribute_value t k, [])
      else if char_eqb c """" then (Value_double_quoted t k [], [])
      else if char_eqb c "'" then (Value_single_quoted t k [], [])
      else if char_eqb c ">" then (Data, [finish (add_attribute t k []) false])
      else (Value_unquoted t k [c], [])
  | Value_double_quoted t k v =>
      if char_eqb c """" then (After_value_quoted (add_attribute t k v), [])
      else (Value_double_quoted t k (v ++ [c]), [])
  | Value_single_quoted t k v =>
      if char_eqb c "'" then (After_value_quoted (add_attribute t k v), [])
      else (Value_single_quoted t k (v ++ [c]), [])
  | Value_unquoted t k v =>
      if is_html_space c then (Before_attribute_name (add_attribute t k v), [])
      else if char_eqb c ">" then (Data, [finish (add_attribute t k v) false])
      else (Value_unquoted t k (v ++ [c]), [])
  | After_value_quoted t =>
      if is_html_space c then (Before_attribute_name t, [])
      else if char_eqb c "/" then (Self_closing t, [])
      else if char_eqb c ">" then (Data, [finish t false])
      else before_attribute_name t c
  | Self_closing t =>
      if char_eqb c ">" then (Data, [finish t true]) else before_attribute_name t c
  | Markup_declaration_open =>
      if char_eqb c "-" then (Markup_declaration_dash, []) else declaration [] c
  | Markup_declaration_dash =>
      if char_eqb c "-" then (Comment_start, []) else declaration (str "-") c
  | Declaration d => declaration d c
  | Comment_start =>
      if char_eqb c "-" then (Comment_start_dash, [])
      else if char_eqb c ">" then (Data, [E_comment []])
      else comment [] c
  | Comment_start_dash =>
      if char_eqb c "-" then (Comment_end [], [])
      else if char_eqb c ">" then (Data, [E_comment []])
      else comment (str "-") c
  | Comment acc => comment acc c
  | Comment_end_dash acc =>
      if char_eqb c "-" then (Comment_end acc, []) else comment (acc ++ str "-") c
  | Comment_end acc =>
      if char_eqb c ">" then (Data, [E_comment acc])
      else if char_eqb c "!" then (Comment_end_bang acc, [])
      else if char_eqb c "-" then (Comment_end (acc ++ str "-"), [])
      else comment (acc ++ str "--") c
  | Comment_end_bang acc =>
      if char_eqb c "-" then (Comment_end_dash (acc ++ str "--!"), [])
      else if char_eqb c ">" then (Data, [E_comment acc])
      else comment (acc ++ str "--!") c
  end.

(** A whole text. *)
Fixpoint scan (s : scan_state) (t : text) : scan_state * list event :=
  match t with
  | [] => (s, [])
  | c :: r => let '(s', e) := scan_char s c in let '(s'', e') := scan s' r in (s'', e ++ e')
  end.

(** The events that are not characters of the content. *)
Definition markup (l : list event) : list event :=
  filter (fun e => match e with E_char _ => false | _ => true end) l.

(** The characters of the content. *)
Definition content (l : list event) : text :=
  flat_map (fun e => match e with E_char c => [c] | _ => [] end) l.

(** Character references (13.2.5.72), reduced to four names. *)
Fixpoint unescape (t : text) : text :=
  match t with
  | [] => []
  | "&"%char :: "l"%char :: "t"%char :: ";"%char :: r => "<"%char :: unescape r
  | "&"%char :: "g"%char :: "t"%char :: ";"%char :: r => ">"%char :: unescape r
  | "&"%char :: "a"%char :: "m"%char :: "p"%char :: ";"%char :: r => "&"%char :: unescape r
  | "&"%char :: "q"%char :: "u"%char :: "o"%char :: "t"%char :: ";"%char :: r =>
      """"%char :: unescape r
  | c :: r => c :: unescape r
  end.

(** Number of elements left open, if no tag closes an element that is not open. *)
Fixpoint depth_after (d : nat) (l : list event) : option nat :=
  match l with
  | [] => Some d
  | E_open _ _ false :: r => depth_after (S d) r
  | E_close _ :: r => match d with O => None | S d' => depth_after d' r end
  | _ :: r => depth_after d r
  end.

(** Tags are properly nested inside the elements [open], innermost first, and all are closed. *)
Fixpoint nested (open : list text) (l : list event) : bool :=
  match l with
  | [] => match open with [] => true | _ => false end
  | E_open n _ false :: r => nested (n :: open) r
  | E_close n :: r =>
      match open with
      | m :: open' => text_eqb n m && nested open' r
      | [] => false
      end
  | _ :: r => nested open r
  end.


(** ** Calls *)

(** A tag that is still open for attributes: name, attributes, and whether the last of them is written
    without quotes. *)
Definition open_tag : Type := text * list (text * text) * bool.

Definition is_bare (v : text) : bool :=
  match v with [] => false | _ => negb (requires_quotes_in_attribute v) end.

(** The markup a call stands for, and the tag left open for attributes. *)
Definition call_markup (p : option open_tag) (c : call) : list event * option open_tag :=
  match c, p with
  | W_preamble, _ => ([E_declaration (str "DOCTYPE html")], p)
  | W_empty_tag t, _ => ([E_open (tp_id t) [] true], p)
  | W_begin_tag t, _ => ([E_open (tp_id t) [] false], p)
  | W_end_tag t, _ => ([E_close (tp_id t)], p)
  | W_comment c _, _ => ([E_comment c], p)
  | W_begin_attributes t, _ => ([], Some (tp_id t, [], false))
  | W_attribute k v, Some (n, a, _) => ([], Some (n, a ++ [(k, v)], is_bare v))
  | W_end_attributes _, Some (n, a, _) => ([E_open n a false], None)
  | W_end_empty _, Some (n, a, _) => ([E_open n a true], None)
  | _, _ => ([], p)
  end.

(** The markup a history of calls stands for. *)
Fixpoint calls_markup (p : option open_tag) (l : list call) : list event :=
  match l with
  | [] => []
  | c :: r => let '(e, p') := call_markup p c in e ++ calls_markup p' r
  end.

(** Names of tags begin with a letter. *)
Definition sound_name (n : text) : bool := match n with c :: _ => is_alpha c | [] => false end.

(** Attribute values without double quotes, tabs, line feeds, form feeds and carriage returns. *)
Definition sound_value (v : text) : bool :=
  forallb (fun c => negb (in_set c [""""%char; "009"%char; "010"%char; "012"%char; "013"%char])) v.

(** Comments the standard allows (13.1.6), as far as they are not excluded by the writer. *)
Definition sound_comment (c : text) : bool :=
  negb (starts_with c (str ">")) && negb (starts_with c (str "->"))
  && match find_text (str "--!>") c with None => true | Some _ => false end.

(** Calls whose arguments are sound. A self-closing tag must not end with a value without quotes. *)
Definition sound_call (p : option open_tag) (c : call) : bool :=
  match c with
  | W_empty_tag t | W_begin_tag t | W_begin_attributes t | W_end_tag t => sound_name (tp_id t)
  | W_attribute _ v => sound_value v
  | W_comment c _ => sound_comment c
  | W_end_empty _ => match p with Some (_, _, bare) => negb bare | None => true end
  | _ => true
  end.

Fixpoint sound_calls (p : option open_tag) (l : list call) : bool :=
  match l with
  | [] => true
  | c :: r => sound_call p c && sound_calls (snd (call_markup p c)) r
  end.

(** The calls come with matching tags: every [end_tag] has the name of the innermost open element. *)
Fixpoint matched (open : list text) (p : option text) (l : list call) : bool :=
  match l with
  | [] => match open with [] => true | _ => false end
  | c :: r =>
      match c, p, open with
      | W_begin_tag t, _, _ => matched (tp_id t :: open) p r
      | W_begin_attributes t, _, _ => matched open (Some (tp_id t)) r
      | W_end_attributes _, Some n, _ => matched (n :: open) None r
      | W_end_empty _, _, _ => matched open None r
      | W_end_tag t, _, n :: open' => text_eqb (tp_id t) n && matched open' p r
      | W_end_tag _, _, [] => false
      | _, _, _ => matched open p r
      end
  end.

(** ** Documents *)

(** A document to be written. *)
Inductive node : Type :=
| N_text (t : text) (s : formatting_style)
| N_space (c : ascii) (n : Z)
| N_comment (c : text) (s : formatting_style)
| N_empty (p : tag_properties) (attributes : list (text * text))
| N_element (p : tag_properties) (attributes : list (text * text)) (children : list node).

(** The tags and comments of a document, in order. *)
Fixpoint node_markup (n : node) : list event :=
  match n with
  | N_text _ _ | N_space _ _ => []
  | N_comment c _ => [E_comment c]
  | N_empty p a => [E_open (tp_id p) a true]
  | N_element p a l => E_open (tp_id p) a false :: flat_map node_markup l ++ [E_close (tp_id p)]
  end.

(** Writing an opening tag with the interface of the writer. *)
Definition tag_calls (p : tag_properties) (a : list (text * text)) (plain : call)
    (last : formatting_style -> call) : list call :=
  match a with
  | [] => [plain]
  | _ => W_begin_attributes p :: map (fun '(k, v) => W_attribute k v) a ++ [last (tp_style p)]
  end.

(** Writing a document with the interface of the writer, as its documentation asks for
    (src/bmd/html/html_writer.hpp:113-115). *)
Fixpoint node_calls (n : node) : list call :=
  match n with
  | N_text t s => [W_inner_text t s]
  | N_space c k => [W_whitespace c k]
  | N_comment c s => [W_comment c s]
  | N_empty p a => tag_calls p a (W_empty_tag p) W_end_empty
  | N_element p a l =>
      tag_calls p a (W_begin_tag p) W_end_attributes ++ flat_map node_calls l ++ [W_end_tag p]
  end.

(** Attribute lists whose keys are identifiers and whose values are sound. *)
Definition good_attributes (a : list (text * text)) : bool :=
  forallb (fun '(k, v) => is_html_identifier k && sound_value v) a.

Definition last_bare (a : list (text * text)) : bool := is_bare (snd (List.last a ([], []))).

(** Documents that can be written: arguments are sound, and tags with attributes are not formatted as
    blocks unless they are self-closing. *)
Fixpoint writable (n : node) : bool :=
  match n with
  | N_text _ _ => true
  | N_space c _ => in_set c [" "%char; ch_newline; ch_tab; ch_cr]
  | N_comment c _ =>
      sound_comment c && match find_text (str "-->") c with None => true | Some _ => false end
  | N_empty p a =>
      is_html_identifier (tp_id p) && sound_name (tp_id p) && good_attributes a && negb (last_bare a)
  | N_element p a l =>
      is_html_identifier (tp_id p) && sound_name (tp_id p) && good_attributes a
      && (match a with [] => true | _ => negb (is_block_like (tp_style p)) end)
      && forallb writable l
  end.
