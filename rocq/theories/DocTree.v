(** The printed tree of a document ([dump_ast]).  Models src/common/diagnostics.cpp:881-974 and 984-990, and
    [extract] (src/bmd/parsing/parse.hpp:45-50).

    - What is written to a stream is the text.
    - The numbers in the options are not negative: the assertions about them (894-895, 940) are left out. *)
From Coq Require Import ZArith Ascii String List Bool.
From Verif Require Import Prelude Text HtmlWriter Directives BmdParse Diagnostics.
Import ListNotations.
Open Scope string_scope.
Open Scope list_scope.
Open Scope nat_scope.

(** [BMD_AST_Formatting_Options] (src/common/diagnostics.hpp:100-104). *)
Record tree_options : Type := Tree_Options { indent_width : nat; max_node_text_length : nat; tree_colors : bool }.

(** [Parsed_Document::extract] (src/bmd/parsing/parse.hpp:45-50). *)
Definition extract {E} (source : text) (s : source_span) : outcome E text :=
  assert_then (Z.ltb (sp_begin s) (Z.of_nat (length source)))
    (assert_then (Z.leb (sp_begin s + sp_length s) (Z.of_nat (length source)))
      (Ok (firstn (Z.to_nat (sp_length s)) (skipn (Z.to_nat (sp_begin s)) source)))).

(** [get_source_span] (src/bmd/parsing/ast.hpp:65-69, 205-209). *)
Definition span_of_value (v : bmd_value) : source_span :=
  match v with V_identifier s _ => s | V_number s _ _ => s end.
Definition span_of_node (n : bmd_node) : source_span := (* src/bmd/parsing/ast.hpp:205-209 *)
  match n with B_list s _ => s | B_directive s _ _ _ _ => s | B_text s _ => s end.

(** The loop of [print_cut_off] (src/common/diagnostics.cpp:944-970). *)
Fixpoint cut_off (o : tree_options) (visual_length : nat) (v : text) : text :=
  match v with
  | [] => []
  | c :: r =>
      if Nat.leb (max_node_text_length o) visual_length then
        color (tree_colors o) ansi_h_black ++ str " ..." ++ color (tree_colors o) ansi_reset
      else if char_eqb c ch_cr then
        color (tree_colors o) ansi_h_red ++ str "\r" ++ color (tree_colors o) ansi_reset ++ cut_off o (visual_length + 2) r
      else if char_eqb c ch_tab then
        color (tree_colors o) ansi_h_red ++ str "\t" ++ color (tree_colors o) ansi_reset ++ cut_off o (visual_length + 2) r
      else if char_eqb c ch_newline then
        color (tree_colors o) ansi_h_red ++ str "\n" ++ color (tree_colors o) ansi_reset ++ cut_off o (visual_length + 2) r
      else c :: cut_off o (visual_length + 1) r
  end.

(** [print_cut_off] (src/common/diagnostics.cpp:938-973). *)
Definition print_cut_off (o : tree_options) (v : text) : text := cut_off o 0 v.

(** [indent] (src/common/diagnostics.cpp:897). *)
Definition indentation (o : tree_options) (level : nat) : text := repeat " "%char (indent_width o * level).

(** The arguments of a directive (src/common/diagnostics.cpp:918-923). *)
Fixpoint print_arguments {E} (o : tree_options) (source : text) (level : nat) (args : list (text * bmd_value))
  : outcome E text :=
  match args with
  | [] => Ok []
  | (key, val) :: rest =>
      let* t := extract source (span_of_value val) in
      let* u := print_arguments o source level rest in
      Ok (indentation o level ++ ansi_h_blue ++ key ++ str ": " ++ ansi_reset ++ t ++ [ch_newline] ++ u)
  end.

(** The line of a node (src/common/diagnostics.cpp:904-916): here the colors are not optional. *)
Definition print_head {E} (o : tree_options) (source : text) (level : nat) (n : bmd_node) : outcome E text :=
  let* extracted := extract source (span_of_node n) in
  Ok (indentation o level
      ++ match n with
         | B_directive _ _ id _ _ => ansi_h_green ++ str "\" ++ id
         | B_list _ _ => ansi_h_magenta ++ str "List"
         | B_text _ _ => ansi_h_magenta ++ str "Text"
         end
      ++ ansi_h_black ++ str "(" ++ ansi_reset ++ print_cut_off o extracted
      ++ ansi_h_black ++ str ")" ++ [ch_newline] ++ ansi_reset).

(** The line of a null pointer (src/common/diagnostics.cpp:898-902). *)
Definition print_null (o : tree_options) (level : nat) : text := indentation o level ++ str "null" ++ [ch_newline].

(** [print] (src/common/diagnostics.cpp:892-929); [arrange] is the order of the arguments in their hash table. *)
Fixpoint print_node {E} (arrange : list (text * bmd_value) -> list (text * bmd_value)) (o : tree_options)
  (source : text) (level : nat) (n : bmd_node) : outcome E text :=
  let* head := print_head o source level n in
  match n with
  | B_text _ _ => Ok head
  | B_list _ children =>
      let* rest :=
        (fix print_children (l : list bmd_node) : outcome E text :=
           match l with
           | [] => Ok []
           | c :: l' =>
               let* t := print_node arrange o source (level + 1) c in
               let* u := print_children l' in
               Ok (t ++ u)
           end) children in
      Ok (head ++ rest)
  | B_directive _ _ _ args block =>
      let* arguments := print_arguments o source level (arrange args) in
      let* rest :=
        match block with
        | None => Ok (print_null o (level + 1))
        | Some b => print_node arrange o source (level + 1) b
        end in
      Ok (head ++ arguments ++ rest)
  end.

(** [print_ast] for a document (src/common/diagnostics.cpp:984-990). *)
Definition print_document_tree {E} (arrange : list (text * bmd_value) -> list (text * bmd_value)) (o : tree_options)
  (source : text) (root : option bmd_node) : outcome E text :=
  match root with
  | None => Ok (print_null o 0)
  | Some n => print_node arrange o source 0 n
  end.

(** The options of the tool (src/cli/main.cpp:59-60). *)
Definition dump_options : tree_options := Tree_Options 2 30 true.
