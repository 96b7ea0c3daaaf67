(** The printed tree of a program ([dump_ast]).  Models [BMS_AST_Printer] and [print_ast] (src/common/diagnostics.cpp:830-882 and
    977-982) and the nodes that are pushed while parsing (src/bms/parsing/parse.cpp:490-1521, src/bms/parsing/astp.hpp:17-596).

    - What is written to a stream is the text.
    - The vector of nodes with handles into it is a tree whose nodes come with their handle.  The nodes that are pushed
      in an attempt are dropped with it (parse.cpp:490-514), so the handles are given here to the nodes that stay.
    - Positions are those of single tokens; a node comes with the text of its token.
    - The numbers in the options and levels are not negative: the assertions about them (842-843) are left out. *)
From Coq Require Import ZArith Ascii String List Bool.
From Verif Require Import Prelude Text Types Tables Ast Annotations Parse Diagnostics.
Import ListNotations.
Open Scope string_scope.
Open Scope list_scope.
Open Scope nat_scope.

(** [Some_Node] (src/bms/parsing/astp.hpp:543-573): [self_name], [child_names] if there are any, the text at [pos], and
    [get_children], where [None] is [Handle::null]. *)
Inductive tree : Type :=
| Tree (self : text) (names : option (list text)) (t : text) (children : list (option (nat * tree))).

(** A handle and its node, as a child. *)
Definition kid : Type := option (nat * tree). (* src/bms/parsing/astp.hpp:27 *)

(** The text at [get_source_position] (src/bms/parsing/astp.hpp:578-581). *)
Definition tree_text (t : tree) : text := match t with Tree _ _ x _ => x end.

(** [push_node] (src/bms/parsing/parse.cpp:108-113); [n] nodes were pushed before. *)
Definition push (n : nat) (t : tree) : kid * nat := (Some (n, t), S n).

(** The text of a keyword, an operator or a brace, as the tokenizer reads it (src/bms/tokenization/tokenize.cpp:28-204). *)
Definition code (k : token_type) : text := token_type_code_name k.

(** Nodes are matched and pushed one after the other (e.g. src/bms/parsing/parse.cpp:1169-1170). *)
Definition push_each {A} (f : A -> nat -> tree * nat) : list A -> nat -> list kid * nat :=
  fix each (l : list A) (n : nat) : list kid * nat :=
    match l with
    | [] => ([], n)
    | a :: l' =>
        let (t, n1) := f a n in
        let (k, n2) := push n1 t in
        let (ks, n3) := each l' n2 in
        (k :: ks, n3)
    end.

(** [Annotation_Argument] (src/bms/parsing/astp.hpp:275-286, src/bms/parsing/parse.cpp:884-915): the position is that of the key, or of the
    value, which has its quotes there. *)
Definition argument_tree (a : annotation_argument) (n : nat) : tree * nat :=
  (Tree (str "Annotation_Argument") None
     match aa_key a with
     | [] => match aa_value_type a with
             | tk_string_literal => """"%char :: aa_value a ++ [""""%char]
             | _ => aa_value a
             end
     | k => k
     end [], n).

(** [Annotation] (src/bms/parsing/astp.hpp:253-273, src/bms/parsing/parse.cpp:840-882). *)
Definition annotation_tree (a : parsed_annotation) (n : nat) : tree * nat :=
  let (ks, n1) := push_each argument_tree (pn_arguments a) n in
  (Tree (str "Attribute") (Some [str "type"]) (str "@") ks, n1).

(** [match_annotation_sequence] (src/bms/parsing/parse.cpp:820-838), where there is an [@]. *)
Definition annotation_kids (l : list parsed_annotation) (n : nat) : list kid * nat := push_each annotation_tree l n.

(** [push_or_null] of the list of annotations (src/bms/parsing/parse.cpp:530-542). *)
Definition push_annotations (ks : list kid) (n : nat) : kid * nat :=
  match ks with
  | [] => (None, n)
  | _ => push n (Tree (str "Attribute_List") None (str "@") ks)
  end.

(** [type_type] and its keyword (src/bms/parsing/parse.cpp:1500-1517). *)
Definition type_keyword (t : type_type) : token_type :=
  match t with
  | tt_Void => tk_keyword_void
  | tt_Bool => tk_keyword_bool
  | tt_Int => tk_keyword_int
  | tt_Uint => tk_keyword_uint
  end.

(** The expressions (src/bms/parsing/parse.cpp:1179-1491) and [match_type] (1493-1521). *)
Fixpoint expr_tree (e : pexpr) (n : nat) : tree * nat :=
  match e with
  | PConversion e1 target =>
      let (t1, n1) := expr_tree e1 n in
      let (t2, n2) := type_tree target n1 in
      let (k1, n3) := push n2 t1 in
      let (k2, n4) := push n3 t2 in
      (Tree (str "Conversion_Expression") (Some [str "expression"; str "target_type"]) (tree_text t1) [k1; k2], n4)
  | PIf lhs condition rhs =>
      let (t1, n1) := expr_tree lhs n in
      let (t2, n2) := expr_tree condition n1 in
      let (t3, n3) := expr_tree rhs n2 in
      let (k1, n4) := push n3 t1 in
      let (k2, n5) := push n4 t2 in
      let (k3, n6) := push n5 t3 in
      (Tree (str "If_Expression") (Some [str "left"; str "condition"; str "right"]) (tree_text t1) [k1; k2; k3], n6)
  | PBinary op lhs rhs =>
      let (t1, n1) := expr_tree lhs n in
      let (t2, n2) := expr_tree rhs n1 in
      let (k1, n3) := push n2 t1 in
      let (k2, n4) := push n3 t2 in
      (Tree (str "Binary_Expression") (Some [str "left"; str "right"]) (code op) [k1; k2], n4)
  | PPrefix op e1 =>
      let (t1, n1) := expr_tree e1 n in
      let (k1, n2) := push n1 t1 in
      (Tree (str "Prefix_Expression") (Some [str "expression"]) (code op) [k1], n2)
  | PCall name args annotations _ =>
      let (ks, n1) := push_each expr_tree args n in
      let (aks, n2) := annotation_kids annotations n1 in
      let (k, n3) := push_annotations aks n2 in
      (Tree (str "Function_Call_Expression") None name (ks ++ [k]), n3)
  | PId name => (Tree (str "Id_Expression") None name [], n)
  | PLiteral lit _ => (Tree (str "Literal") None lit [], n)
  end
with type_tree (t : ptype) (n : nat) : tree * nat :=
  match t with
  | PType type width =>
      let (k, n1) :=
        match width with
        | None => (None, n)
        | Some e => let (t1, n1) := expr_tree e n in push n1 t1
        end in
      (Tree (str "Type") (Some [str "width"]) (code (type_keyword type)) [k], n1)
  end.

(** A child that is matched and pushed if it is there (e.g. src/bms/parsing/parse.cpp:664-672). *)
Definition push_option {A} (f : A -> nat -> tree * nat) (x : option A) (n : nat) : kid * nat :=
  match x with
  | None => (None, n)
  | Some a => let (t, n1) := f a n in push n1 t
  end.

(** A block of statements (src/bms/parsing/parse.cpp:1156-1177). *)
Definition block_node (ks : list kid) : tree := Tree (str "Block_Statement") None (code tk_left_brace) ks.

(** The statements (src/bms/parsing/parse.cpp:609-692, 792-808 and 917-1177). *)
Fixpoint stmt_tree (s : pstmt) (n : nat) : tree * nat :=
  match s with
  | PConst _ annotations type init =>
      let (aks, n1) := annotation_kids annotations n in
      let (k2, n2) := push_option type_tree type n1 in
      let (t3, n3) := expr_tree init n2 in
      let (k1, n4) := push_annotations aks n3 in
      let (k3, n5) := push n4 t3 in
      (Tree (str "Const") (Some [str "annotations"; str "type"; str "initializer"]) (code tk_keyword_const) [k1; k2; k3], n5)
  | PLet _ annotations type init =>
      let (aks, n1) := annotation_kids annotations n in
      let (k2, n2) := push_option type_tree type n1 in
      let (k3, n3) := push_option expr_tree init n2 in
      let (k1, n4) := push_annotations aks n3 in
      (Tree (str "Let") (Some [str "annotations"; str "type"; str "initializer"]) (code tk_keyword_let) [k1; k2; k3], n4)
  | PStatic_Assert e =>
      let (t1, n1) := expr_tree e n in
      let (k1, n2) := push n1 t1 in
      (Tree (str "Static_Assert") (Some [str "expression"]) (code tk_keyword_static_assert) [k1], n2)
  | PIf_Statement annotations condition block else_node =>
      let (aks, n1) := annotation_kids annotations n in
      let (t2, n2) := expr_tree condition n1 in
      let (ks, n3) := push_each stmt_tree block n2 in
      let (k4, n4) := match else_node with
                      | None => (None, n3)
                      | Some s1 => let (t, n4) := stmt_tree s1 n3 in push n4 t
                      end in
      let (k1, n5) := push_annotations aks n4 in
      let (k2, n6) := push n5 t2 in
      let (k3, n7) := push n6 (block_node ks) in
      (Tree (str "If_Statement") (Some [str "annotations"; str "condition"; str "if_block"; str "else_block"])
         (code tk_keyword_if) [k1; k2; k3; k4], n7)
  | PWhile annotations condition block =>
      let (aks, n1) := annotation_kids annotations n in
      let (t2, n2) := expr_tree condition n1 in
      let (ks, n3) := push_each stmt_tree block n2 in
      let (k1, n4) := push_annotations aks n3 in
      let (k2, n5) := push n4 t2 in
      let (k3, n6) := push n5 (block_node ks) in
      (Tree (str "While_Statement") (Some [str "annotations"; str "condition"; str "block"]) (code tk_keyword_while) [k1; k2; k3], n6)
  | PBreak => (Tree (str "Break") None (code tk_keyword_break) [], n)
  | PContinue => (Tree (str "Continue") None (code tk_keyword_continue) [], n)
  | PReturn e =>
      let (k1, n1) := push_option expr_tree e n in
      (Tree (str "Return_Statement") (Some [str "expression"]) (code tk_keyword_return) [k1], n1)
  | PAssignment name annotations e =>
      let (aks, n1) := annotation_kids annotations n in
      let (t2, n2) := expr_tree e n1 in
      let (k1, n3) := push_annotations aks n2 in
      let (k2, n4) := push n3 t2 in
      (Tree (str "Assignment") (Some [str "annotations"; str "expression"]) name [k1; k2], n4)
  | PBlock statements =>
      let (ks, n1) := push_each stmt_tree statements n in
      (block_node ks, n1)
  | PExpr e => expr_tree e n
  end.

(** [match_parameter] (src/bms/parsing/parse.cpp:774-790). *)
Definition parameter_tree (p : pparameter) (n : nat) : tree * nat :=
  let (t1, n1) := type_tree (pp_type p) n in
  let (k1, n2) := push n1 t1 in
  (Tree (str "Parameter") (Some [str "type"]) (pp_name p) [k1], n2).

(** [match_parameter_sequence] (src/bms/parsing/parse.cpp:754-772): the position is that of the last parameter, despite the
    name [first_pos]. *)
Definition parameters_kid (l : list pparameter) (n : nat) : kid * nat :=
  match l with
  | [] => (None, n)
  | _ =>
      let (ks, n1) := push_each parameter_tree l n in
      push n1 (Tree (str "Parameter_List") None (last (map pp_name l) []) ks)
  end.

(** [match_function_declaration] (src/bms/parsing/parse.cpp:694-752). *)
Definition function_tree (f : pfunction) (n : nat) : tree * nat :=
  let (aks, n1) := annotation_kids (pf_annotations f) n in
  let (k2, n2) := parameters_kid (pf_parameters f) n1 in
  let (t3, n3) := type_tree (pf_return_type f) n2 in
  let (k4, n4) := push_option expr_tree (pf_requires f) n3 in
  let (ks, n5) := push_each stmt_tree (pf_body f) n4 in
  let (k1, n6) := push_annotations aks n5 in
  let (k3, n7) := push n6 t3 in
  let (k5, n8) := push n7 (block_node ks) in
  (Tree (str "Function")
     (Some [str "annotations"; str "parameters"; str "return_type"; str "requires_clause"; str "body"])
     (code tk_keyword_function) [k1; k2; k3; k4; k5], n8).

Definition decl_tree (d : pdecl) (n : nat) : tree * nat := (* src/bms/parsing/parse.cpp:564-607 *)
  match d with PD_Function f => function_tree f n | PD_Statement s => stmt_tree s n end.

(** [match_program] (src/bms/parsing/parse.cpp:544-562): the position is that of the first declaration, and there is one. *)
Definition program_tree (p : list pdecl) (n : nat) : tree * nat :=
  let (ks, n1) := push_each decl_tree p n in
  (Tree (str "Program") None match ks with Some (_, t) :: _ => tree_text t | _ => [] end ks, n1).

(** [BMS_AST_Formatting_Options] (src/common/diagnostics.hpp:92-95). *)
Record program_options : Type := Program_Options { width : nat; colored : bool }.

(** [n.child_names[i]] or no name (src/common/diagnostics.cpp:869-878): beyond the end, the behavior is undefined. *)
Definition child_name {E} (names : option (list text)) (i : nat) : outcome E text :=
  match names with
  | None => Ok []
  | Some l => match nth_error l i with Some x => Ok x | None => UB end
  end.

(** What is written for a null handle (src/common/diagnostics.cpp:845 and 849-856). *)
Definition null_line (o : program_options) (level : nat) (role : text) : text :=
  repeat " "%char (width o * level)
  ++ match role with
     | [] => []
     | _ => color (colored o) ansi_h_green ++ role ++ color (colored o) ansi_black ++ str "=" ++ color (colored o) ansi_reset
     end
  ++ str "null" ++ [ch_newline].

(** What is written for a node itself (src/common/diagnostics.cpp:845-866). *)
Definition node_line (o : program_options) (level : nat) (role : text) (handle : nat) (self t : text) : text :=
  repeat " "%char (width o * level)
  ++ color (colored o) ansi_h_black ++ number handle ++ color (colored o) ansi_reset ++ str ":"
  ++ match role with
     | [] => []
     | _ => color (colored o) ansi_h_green ++ role ++ color (colored o) ansi_black ++ str "=" ++ color (colored o) ansi_reset
     end
  ++ color (colored o) ansi_h_magenta ++ self
  ++ color (colored o) ansi_h_black ++ str "("
  ++ color (colored o) ansi_reset ++ t
  ++ color (colored o) ansi_h_black ++ str ")" ++ [ch_newline]
  ++ color (colored o) ansi_reset.

(** [print] (src/common/diagnostics.cpp:840-881). *)
Fixpoint print_tree {E} (o : program_options) (level : nat) (role : text) (handle : nat) (t : tree) : outcome E text :=
  match t with
  | Tree self names x children =>
      let* rest :=
        (fix print_kids (i : nat) (l : list (option (nat * tree))) : outcome E text :=
           match l with
           | [] => Ok []
           | k :: l' =>
               let* name := child_name names i in
               let* a := match k with
                         | None => Ok (null_line o (S level) name)
                         | Some (h, t1) => print_tree o (S level) name h t1
                         end in
               let* b := print_kids (S i) l' in
               Ok (a ++ b)
           end) 0 children in
      Ok (node_line o level role handle self x ++ rest)
  end.

(** [print_ast] of a parsed program (src/common/diagnostics.cpp:977-982, src/bms/parsing/parse.cpp:398). *)
Definition print_program_tree {E} (o : program_options) (p : list pdecl) : outcome E text :=
  let (t, n) := program_tree p 0 in print_tree o 0 [] n t.

(** The options of the tool (src/cli/main.cpp:54). *)
Definition dump_program_options : program_options := Program_Options 2 true.
