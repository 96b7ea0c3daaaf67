(** What the printed tree of a program should be, stated without the printer and without the order in which nodes are made.  This is a
    specification; it does not model code of the repository. *)
From Coq Require Import ZArith Ascii String List Bool.
From Verif Require Import Prelude Text Types Tables Ast Annotations Parse AnnotationWalkSpec.
Import ListNotations.
Open Scope string_scope.
Open Scope list_scope.
Open Scope nat_scope.

(** What is shown of a construct: its kind, a word of its source, and its parts, each with its role; parts that may be left out
    are shown as missing. *)
Inductive view : Type :=
| View (kind word : text) (parts : list (text * option view)).
Definition part : Type := text * option view.
Definition has (role : string) (v : view) : part := (str role, Some v).
Definition may_have {A} (role : string) (f : A -> view) (x : option A) : part := (str role, option_map f x).
Definition word_of (v : view) : text := match v with View _ w _ => w end.

(** An argument is shown with its key, or else with its value as it is written. *)
Definition view_argument (a : annotation_argument) : view :=
  View (str "Annotation_Argument")
    (if text_eqb (aa_key a) [] then
       match aa_value_type a with tk_string_literal => str """" ++ aa_value a ++ str """" | _ => aa_value a end
     else aa_key a) [].

(** The argument of an annotation is said to be a type (see [C77_argument_refuted]). *)
Definition view_annotation (a : parsed_annotation) : view :=
  View (str "Attribute") (str "@") (map (fun x => has "type" (view_argument x)) (pn_arguments a)).
Definition view_annotations (l : list parsed_annotation) : option view :=
  match l with [] => None | _ => Some (View (str "Attribute_List") (str "@") (map (fun a => has "" (view_annotation a)) l)) end.

(** The words of the operators and of the types. *)
Definition operator_word (k : token_type) : text :=
  match k with
  | tk_plus => str "+" | tk_minus => str "-" | tk_multiplication => str "*" | tk_division => str "/" | tk_remainder => str "%"
  | tk_equals => str "==" | tk_not_equals => str "!=" | tk_less_than => str "<" | tk_greater_than => str ">"
  | tk_less_or_equal => str "<=" | tk_greater_or_equal => str ">=" | tk_shift_left => str "<<" | tk_shift_right => str ">>"
  | tk_bitwise_and => str "&" | tk_bitwise_or => str "|" | tk_bitwise_xor => str "^" | tk_bitwise_not => str "~"
  | tk_logical_and => str "&&" | tk_logical_or => str "||" | tk_logical_not => str "!"
  | _ => token_type_code_name k (* no operator *)
  end.
Definition type_word (t : type_type) : text :=
  match t with tt_Void => str "Void" | tt_Bool => str "Bool" | tt_Int => str "Int" | tt_Uint => str "Uint" end.

Fixpoint view_expr (e : pexpr) : view :=
  match e with
  | PConversion e1 target =>
      View (str "Conversion_Expression") (word_of (view_expr e1)) [has "expression" (view_expr e1); has "target_type" (view_type target)]
  | PIf l c r =>
      View (str "If_Expression") (word_of (view_expr l)) [has "left" (view_expr l); has "condition" (view_expr c); has "right" (view_expr r)]
  | PBinary op l r => View (str "Binary_Expression") (operator_word op) [has "left" (view_expr l); has "right" (view_expr r)]
  | PPrefix op e1 => View (str "Prefix_Expression") (operator_word op) [has "expression" (view_expr e1)]
  | PCall name args annotations _ =>
      View (str "Function_Call_Expression") name (map (fun a => has "" (view_expr a)) args ++ [([], view_annotations annotations)])
  | PId name => View (str "Id_Expression") name []
  | PLiteral lit _ => View (str "Literal") lit []
  end
with view_type (t : ptype) : view :=
  match t with
  | PType type width =>
      View (str "Type") (type_word type) [(str "width", match width with None => None | Some e => Some (view_expr e) end)]
  end.

Fixpoint view_stmt (s : pstmt) : view :=
  match s with
  | PConst _ annotations type init =>
      View (str "Const") (str "const")
        [(str "annotations", view_annotations annotations); may_have "type" view_type type; has "initializer" (view_expr init)]
  | PLet _ annotations type init =>
      View (str "Let") (str "let")
        [(str "annotations", view_annotations annotations); may_have "type" view_type type; may_have "initializer" view_expr init]
  | PStatic_Assert e => View (str "Static_Assert") (str "static_assert") [has "expression" (view_expr e)]
  | PIf_Statement annotations condition block else_node =>
      View (str "If_Statement") (str "if")
        [(str "annotations", view_annotations annotations); has "condition" (view_expr condition);
         has "if_block" (View (str "Block_Statement") (str "{") (map (fun s1 => has "" (view_stmt s1)) block));
         (str "else_block", match else_node with None => None | Some s1 => Some (view_stmt s1) end)]
  | PWhile annotations condition block =>
      View (str "While_Statement") (str "while")
        [(str "annotations", view_annotations annotations); has "condition" (view_expr condition);
         has "block" (View (str "Block_Statement") (str "{") (map (fun s1 => has "" (view_stmt s1)) block))]
  | PBreak => View (str "Break") (str "break") []
  | PContinue => View (str "Continue") (str "continue") []
  | PReturn e => View (str "Return_Statement") (str "return") [may_have "expression" view_expr e]
  | PAssignment name annotations e =>
      View (str "Assignment") name [(str "annotations", view_annotations annotations); has "expression" (view_expr e)]
  | PBlock l => View (str "Block_Statement") (str "{") (map (fun s1 => has "" (view_stmt s1)) l)
  | PExpr e => view_expr e
  end.

(** A list of parameters is shown with the name of its last one. *)
Definition view_parameter (p : pparameter) : view := View (str "Parameter") (pp_name p) [has "type" (view_type (pp_type p))].
Definition view_parameters (l : list pparameter) : option view :=
  match rev l with
  | [] => None
  | p :: _ => Some (View (str "Parameter_List") (pp_name p) (map (fun q => has "" (view_parameter q)) l))
  end.

Definition view_decl (d : pdecl) : view :=
  match d with
  | PD_Function f =>
      View (str "Function") (str "function")
        [(str "annotations", view_annotations (pf_annotations f)); (str "parameters", view_parameters (pf_parameters f));
         has "return_type" (view_type (pf_return_type f)); may_have "requires_clause" view_expr (pf_requires f);
         has "body" (View (str "Block_Statement") (str "{") (map (fun s => has "" (view_stmt s)) (pf_body f)))]
  | PD_Statement s => view_stmt s
  end.

Definition view_program (p : list pdecl) : view :=
  View (str "Program") match p with d :: _ => word_of (view_decl d) | [] => [] end (map (fun d => has "" (view_decl d)) p).

(** A view whose nodes have numbers. *)
Inductive numbered : Type :=
| Numbered (number : nat) (kind word : text) (parts : list (text * option numbered)).

Fixpoint unnumbered (v : numbered) : view :=
  match v with
  | Numbered _ k w l =>
      View k w (map (fun x : text * option numbered =>
        let (role, y) := x in (role, match y with Some z => Some (unnumbered z) | None => None end)) l)
  end.
Fixpoint numbers (v : numbered) : list nat :=
  match v with
  | Numbered n _ _ l =>
      n :: flat_map (fun x : text * option numbered => let (_, y) := x in match y with Some z => numbers z | None => [] end) l
  end.

(** Each node below the root has a smaller number than the node it is a part of. *)
Fixpoint descending (v : numbered) : Prop :=
  match v with
  | Numbered n _ _ l =>
      (fix all (l : list (text * option numbered)) : Prop :=
         match l with
         | [] => True
         | (_, None) :: r => all r
         | (_, Some z) :: r => (match z with Numbered m _ _ _ => m < n end /\ descending z) /\ all r
         end) l
  end.

(** Escape sequences of terminals. *)
Definition escape (colors : bool) (parameters : string) : text :=
  if colors then ["027"%char; "["%char] ++ str parameters ++ str "m" else [].

(** The role is written before the node, and an equals sign between them. *)
Definition role_text (colors : bool) (role : text) : text :=
  if text_eqb role [] then [] else escape colors "0;92" ++ role ++ escape colors "30" ++ str "=" ++ escape colors "0".

(** Every node and every missing part has a line, indented by its depth, below the line of the node it is a part of, and
    behind what is below its elder siblings. *)
Fixpoint layout (colors : bool) (w : nat) (digits : nat -> text) (level : nat) (role : text) (v : numbered) : text :=
  match v with
  | Numbered n kind word l =>
      repeat " "%char (level * w) ++ escape colors "0;90" ++ digits n ++ escape colors "0" ++ str ":" ++ role_text colors role
      ++ escape colors "0;95" ++ kind ++ escape colors "0;90" ++ str "(" ++ escape colors "0" ++ word
      ++ escape colors "0;90" ++ str ")" ++ ["010"%char] ++ escape colors "0"
      ++ flat_map (fun x : text * option numbered =>
           let (r, y) := x in
           match y with
           | Some z => layout colors w digits (S level) r z
           | None => repeat " "%char (S level * w) ++ role_text colors r ++ str "null" ++ ["010"%char]
           end) l
  end.

(** The words of the source that are shown are on one line. *)
Fixpoint one_line (v : view) : Prop :=
  match v with
  | View _ w l =>
      ~ In "010"%char w /\
      (fix all (l : list (text * option view)) : Prop :=
         match l with
         | [] => True
         | (_, None) :: r => all r
         | (_, Some z) :: r => one_line z /\ all r
         end) l
  end.

(** Some annotation has more than one argument. *)
Definition rich_annotation (p : list pdecl) : Prop :=
  exists x, In x (annotations_in p) /\ 2 <= length (pn_arguments (snd x)).


(** A program without what is not shown: the names of functions, constants, variables and annotations; the value of an argument
    that has a key, and which of the two stands there; the kinds of literals, which their text tells; and whether the result of a call is
    discarded, which its place tells. *)
Definition nameless_argument (a : annotation_argument) : annotation_argument := AA (word_of (view_argument a)) [] tk_decimal_literal.
Definition nameless_annotations (l : list parsed_annotation) : list parsed_annotation :=
  map (fun a => PAnn [] (map nameless_argument (pn_arguments a))) l.
Fixpoint nameless_expr (e : pexpr) : pexpr :=
  match e with
  | PConversion e1 t => PConversion (nameless_expr e1) (nameless_type t)
  | PIf l c r => PIf (nameless_expr l) (nameless_expr c) (nameless_expr r)
  | PBinary op l r => PBinary op (nameless_expr l) (nameless_expr r)
  | PPrefix op e1 => PPrefix op (nameless_expr e1)
  | PCall name args annotations _ => PCall name (map nameless_expr args) (nameless_annotations annotations) false
  | PId name => PId name
  | PLiteral lit _ => PLiteral lit tk_decimal_literal
  end
with nameless_type (t : ptype) : ptype :=
  match t with PType type width => PType type match width with None => None | Some e => Some (nameless_expr e) end end.
Fixpoint nameless_stmt (s : pstmt) : pstmt :=
  match s with
  | PConst _ annotations type init => PConst [] (nameless_annotations annotations) (option_map nameless_type type) (nameless_expr init)
  | PLet _ annotations type init =>
      PLet [] (nameless_annotations annotations) (option_map nameless_type type) (option_map nameless_expr init)
  | PStatic_Assert e => PStatic_Assert (nameless_expr e)
  | PIf_Statement annotations condition block else_node =>
      PIf_Statement (nameless_annotations annotations) (nameless_expr condition) (map nameless_stmt block)
        match else_node with None => None | Some s1 => Some (nameless_stmt s1) end
  | PWhile annotations condition block =>
      PWhile (nameless_annotations annotations) (nameless_expr condition) (map nameless_stmt block)
  | PBreak => PBreak
  | PContinue => PContinue
  | PReturn e => PReturn (option_map nameless_expr e)
  | PAssignment name annotations e => PAssignment name (nameless_annotations annotations) (nameless_expr e)
  | PBlock l => PBlock (map nameless_stmt l)
  | PExpr e => PExpr (nameless_expr e)
  end.
Definition nameless_decl (d : pdecl) : pdecl :=
  match d with
  | PD_Function f =>
      PD_Function (PFunc [] (nameless_annotations (pf_annotations f))
        (map (fun q => PParam (pp_name q) (nameless_type (pp_type q))) (pf_parameters f)) (nameless_type (pf_return_type f))
        (option_map nameless_expr (pf_requires f)) (map nameless_stmt (pf_body f)))
  | PD_Statement s => PD_Statement (nameless_stmt s)
  end.

(** No token has a line feed in its text, but for comments. *)
Definition on_lines (ts : list lexeme) : Prop :=
  forall k x, In (k, x) ts -> In "010"%char x -> k = tk_line_comment \/ k = tk_block_comment.
