(** What parsing a BMD document should mean, stated without the parser. *)
From Coq Require Import ZArith Ascii String List Bool.
From Verif Require Import Prelude Text Literals LiteralsSpec HtmlWriter Directives DirectivesSpec BmdParse.
Import ListNotations.
Open Scope string_scope.
Open Scope list_scope.
Open Scope Z_scope.

(** * Positions *)

(** Number of line feeds in a text. *)
Fixpoint newlines (t : text) : Z :=
  match t with
  | [] => 0
  | c :: r => (if Ascii.eqb c ch_newline then 1 else 0) + newlines r
  end.

(** The column after a text that begins in column [col]: line feeds and carriage returns go back to
    column 0, a tabulator counts for four characters. *)
Fixpoint column_after (col : Z) (t : text) : Z :=
  match t with
  | [] => col
  | c :: r =>
      column_after
        (if Ascii.eqb c ch_newline || Ascii.eqb c ch_cr then 0
         else if Ascii.eqb c ch_tab then col + 4 else col + 1) r
  end.

(** The position behind the first [length pre] characters of a source that begins with [pre]. *)
Definition locate (pre : text) : position :=
  Position (newlines pre) (column_after 0 pre) (Z.of_nat (length pre)).

(** The span [sp] of the source [src] is the text [t], and its line and column are those of the place
    where it begins. *)
Definition covers (src : text) (sp : source_span) (t : text) : Prop :=
  exists pre post, src = pre ++ t ++ post /\
    sp = Source_Span (newlines pre) (column_after 0 pre) (Z.of_nat (length pre)) (Z.of_nat (length t)).

(** One span lies inside of another, or behind it. *)
Definition inside (a b : source_span) : Prop :=
  sp_begin b <= sp_begin a /\ sp_begin a + sp_length a <= sp_begin b + sp_length b.
Definition behind (a b : source_span) : Prop := sp_begin b + sp_length b <= sp_begin a.
Definition strictly_inside (a b : source_span) : Prop :=
  sp_begin b < sp_begin a /\ sp_begin a + sp_length a < sp_begin b + sp_length b.

Definition node_span (n : bmd_node) : source_span :=
  match n with B_list s _ => s | B_directive s _ _ _ _ => s | B_text s _ => s end.

Definition value_span (v : bmd_value) : source_span :=
  match v with V_identifier s _ => s | V_number s _ _ => s end.

(** The texts and directives of a list, also those in its paragraphs. *)
Definition items (children : list bmd_node) : list bmd_node :=
  flat_map (fun n => match n with B_list _ l => l | _ => [n] end) children.

(** The paragraphs of a list. *)
Definition paragraphs (children : list bmd_node) : list bmd_node :=
  filter (fun n => match n with B_list _ _ => true | _ => false end) children.

(** Each span begins where or after the one before it ends. *)
Fixpoint in_order (l : list source_span) : Prop :=
  match l with
  | a :: ((b :: _) as r) => behind b a /\ in_order r
  | _ => True
  end.

(** [t] is a literal of kind [k] for the number [n], if it is not too large (and has no capital digits,
    which are not evaluated, see C13). *)
Definition number_reads (k : literal_type) (t : text) (n : Z) : Prop :=
  exists ds, is_literal_text k t ds /\
    forall v, denotes (base_of k) ds v -> v < 2 ^ 63 -> Forall (fun c => ~ is_upper_case c) ds -> n = v.

(** * Raw blocks *)

(** Characters that a backslash takes away the meaning of. *)
Definition escapable (c : ascii) : Prop := c = "\"%char \/ c = "{"%char \/ c = "}"%char.

(** The character that follows in a block, when [c] is the rest of its content. *)
Definition next (c : text) : ascii := match c with [] => "}"%char | x :: _ => x end.

(** [p] occurs in [t]. *)
Definition occurs (p t : text) : Prop := exists u v, t = u ++ p ++ v.

(** The content of a block: braces are balanced; escaped ones and those in comments do not count. *)
Inductive raw_content : text -> Prop :=
| rc_end : raw_content []
| rc_char x c :
    x <> "{"%char -> x <> "}"%char ->
    ~ (x = "\"%char /\ escapable (next c)) ->
    ~ (x = "/"%char /\ (next c = "/"%char \/ next c = "*"%char)) ->
    raw_content c -> raw_content (x :: c)
| rc_escape x c : escapable x -> raw_content c -> raw_content ("\"%char :: x :: c)
| rc_nested a c : raw_content a -> raw_content c -> raw_content ("{"%char :: a ++ "}"%char :: c)
| rc_line a c : ~ In ch_newline a -> raw_content c -> raw_content (str "//" ++ a ++ ch_newline :: c)
| rc_block a c :
    ~ occurs (str "*/") (a ++ str "*") -> raw_content c -> raw_content (str "/*" ++ a ++ str "*/" ++ c).

(** * Trees *)

(** A name: letters, digits and underscores, and no digit first. *)
Definition is_digit_char (c : ascii) : Prop := 48 <= code c <= 57.
Definition is_name_char (c : ascii) : Prop :=
  97 <= code c <= 122 \/ 65 <= code c <= 90 \/ is_digit_char c \/ code c = 95.
Definition is_name (t : text) : Prop :=
  Forall is_name_char t /\ exists c r, t = c :: r /\ ~ is_digit_char c.

(** The text of an argument list, if there is one. *)
Definition argument_text (a : text) : Prop := a = [] \/ exists a', a = str "[" ++ a' ++ str "]".

(** The text of a block, if there is one, with the braces around it. *)
Definition block_text (ty : directive_type) (b : option bmd_node) (t : text) : Prop :=
  t = [] /\ b = None \/
  exists c, raw_content c /\ c <> [] /\ t = str "{" ++ c ++ str "}" /\
    (ty = dt_code_block -> exists sp, b = Some (B_text sp c)).

(** Every node of a tree is where its span says: a text node holds the text of its span, a directive
    is a backslash, its name, its arguments and its block, the names and values of the arguments are names
    or numbers, nodes lie inside of their parents, a block not at the very beginning or end, and the texts
    and directives of a list are in order, and so are its paragraphs. *)
Inductive placed (src : text) : bmd_node -> Prop :=
| placed_text sp t : covers src sp t -> placed src (B_text sp t)
| placed_list sp l t :
    covers src sp t ->
    Forall (placed src) l -> Forall (fun n => inside (node_span n) sp) l ->
    in_order (map node_span (items l)) -> in_order (map node_span (paragraphs l)) ->
    placed src (B_list sp l)
| placed_directive sp ty id args b at_ bt :
    covers src sp (str "\" ++ id ++ at_ ++ bt) -> argument_text at_ -> block_text ty b bt ->
    Forall (fun a => inside (value_span (snd a)) sp /\
                     is_name (fst a) /\
                     match snd a with
                     | V_identifier s t => covers src s t /\ is_name t
                     | V_number s n k =>
                         (exists t, covers src s t /\ number_reads k t n) /\ - 2 ^ 63 <= n < 2 ^ 63
                     end) args ->
    placed_block src sp b ->
    placed src (B_directive sp ty id args b)
with placed_block (src : text) : source_span -> option bmd_node -> Prop :=
| placed_no_block sp : placed_block src sp None
| placed_some_block sp n : placed src n -> strictly_inside (node_span n) sp -> placed_block src sp (Some n).

(** [below n m]: the node [n] is [m] or a node of the tree below it. *)
Inductive below (n : bmd_node) : bmd_node -> Prop :=
| below_self : below n n
| below_list sp l m : In m l -> below n m -> below n (B_list sp l)
| below_block sp ty id args m : below n m -> below n (B_directive sp ty id args (Some m)).

(** * Structure *)

(** Where a node stands. *)
Inductive role : Type := r_paragraph_item | r_content_item | r_meta_item | r_list_item.

(** Where a directive may stand. *)
Definition role_of (t : directive_type) : role :=
  match t with
  | dt_bold | dt_italic | dt_underlined | dt_strikethrough | dt_deleted | dt_quoted | dt_keyboard
  | dt_teletype | dt_subscript | dt_superscript | dt_line_break | dt_code | dt_instruction =>
      r_paragraph_item
  | dt_heading1 | dt_heading2 | dt_heading3 | dt_heading4 | dt_heading5 | dt_heading6
  | dt_horizontal_rule | dt_ordered_list | dt_unordered_list | dt_note | dt_code_block | dt_meta =>
      r_content_item
  | dt_title | dt_bms_function | dt_c_equivalent => r_meta_item
  | dt_item => r_list_item
  end.

(** What the block of a directive holds. *)
Inductive holds : Type := h_nothing | h_one_text | h_items (r : role).
Definition holds_of (t : directive_type) : holds :=
  match t with
  | dt_line_break | dt_horizontal_rule => h_nothing
  | dt_title | dt_bms_function | dt_c_equivalent | dt_instruction | dt_code_block => h_one_text
  | dt_note => h_items r_content_item
  | dt_meta => h_items r_meta_item
  | dt_ordered_list | dt_unordered_list => h_items r_list_item
  | _ => h_items r_paragraph_item
  end.

(** Every node of a tree stands where it may. *)
Inductive fits : role -> bmd_node -> Prop :=
| fits_text sp t : t <> [] -> fits r_paragraph_item (B_text sp t)
| fits_paragraph sp l : l <> [] -> Forall (fits r_paragraph_item) l -> fits r_content_item (B_list sp l)
| fits_directive sp ty id args b :
    id = name_of ty -> NoDup (map fst args) -> fits_block (holds_of ty) b ->
    fits (role_of ty) (B_directive sp ty id args b)
with fits_block : holds -> option bmd_node -> Prop :=
| fits_no_block h : fits_block h None
| fits_one_text sp t : t <> [] -> fits_block h_one_text (Some (B_text sp t))
| fits_items r sp l : Forall (fits r) l -> fits_block (h_items r) (Some (B_list sp l)).

(** * Sources on which the parser behaves *)

(** The beginning of a comment. *)
Definition opener (t : text) : Prop := t = str "//" \/ t = str "/*".

Definition identifier_text (t : text) : Prop := Forall (fun c => in_set c identifier_characters = true) t.

(** No empty block, no directive name after ["ul"], comments only after white space or at the beginning,
    and not a comment that begins with the last two characters. *)
Definition tame (src : text) : Prop :=
  ~ occurs (str "{}") src /\
  (forall id, identifier_text id -> occurs (str "\" ++ id) src -> ~ precedes (str "ul") id) /\
  (forall pre o post, opener o -> src = pre ++ o ++ post ->
     pre = [] \/ exists pre' c, pre = pre' ++ [c] /\ is_space c = true) /\
  (forall pre o, opener o -> src <> pre ++ o).
