(** From the parser's tree to the syntax tree, and the walk that resolves annotations.  Models the class
    [From_Parser_Node] of src/bms/ast.cpp:367-517, the constructors of nodes in src/bms/ast.cpp:56-284, and
    [Resolve_Annotations] of src/bms/analyze_annotations.cpp:337-404,573-578.
    Nodes are created parent first, then their children from left to right; the identities of the nodes that
    names can lead to are numbers given out in this order.  Other nodes have no identity in the model
    (Ast.v).  Parent pointers, positions and memory are left out. *)
From Coq Require Import ZArith List Bool.
From Verif Require Import Prelude Text Types Tables AbsOps Ops Annotations Ast Parse NameLookup.
Import ListNotations.
Open Scope Z_scope.

(** Expressions and types (src/bms/ast.cpp:453-468,490-498, constructors 130-134,229-282): nothing is
    recorded in a new node (src/bms/ast.hpp:102,391-440,738,970,1032-1033).
    Constructing a binary or prefix expression translates the operator (src/bms/ast.cpp:249,258). *)
Fixpoint convert_expr {E} (e : pexpr) : outcome E expr :=
  match e with
  | PConversion e1 target =>
      let* x := convert_expr e1 in
      let* t := convert_type target in
      Ok (EConversion None x t)
  | PIf lhs condition rhs =>
      let* l := convert_expr lhs in
      let* c := convert_expr condition in
      let* r := convert_expr rhs in
      Ok (EIf None l c r)
  | PBinary op lhs rhs =>
      let* k := binary_expression_type_of_token op in
      let* l := convert_expr lhs in
      let* r := convert_expr rhs in
      Ok (EBinary None k l r)
  | PPrefix op e1 =>
      let* k := unary_expression_type_of_token op in
      let* x := convert_expr e1 in
      Ok (EPrefix None k x)
  | PCall name args _ is_statement =>
      let* l :=
        (fix convert_all (l : list pexpr) : outcome E (list expr) :=
           match l with
           | [] => Ok []
           | a :: rest =>
               let* x := convert_expr a in
               let* r := convert_all rest in
               Ok (x :: r)
           end) args in
      Ok (ECall None name None is_statement l)
  | PId name => Ok (EId None name None None)
  | PLiteral lit type => Ok (ELiteral None lit type)
  end
with convert_type {E} (t : ptype) : outcome E type_node :=
  match t with
  | PType type width =>
      match width with
      | None => Ok (Type_Node None type None None)
      | Some e =>
          let* x := convert_expr e in
          Ok (Type_Node None type (Some x) None)
      end
  end.

(** The children of a call (src/bms/ast.cpp:490-498), as above. *)
Definition convert_exprs {E} : list pexpr -> outcome E (list expr) :=
  fix convert_all (l : list pexpr) : outcome E (list expr) :=
    match l with
    | [] => Ok []
    | a :: rest =>
        let* x := convert_expr a in
        let* r := convert_all rest in
        Ok (x :: r)
    end.

(** Children that may be null (src/bms/ast.cpp:374-379). *)
Definition convert_option {E A B} (f : A -> outcome E B) (x : option A) : outcome E (option B) :=
  match x with
  | None => Ok None
  | Some a => let* b := f a in Ok (Some b)
  end.

(** Statements (src/bms/ast.cpp:407-411,453-488, constructors 136-227); [n] is the next identity.
    An expression statement is the node of its expression. *)
Fixpoint convert_stmt {E} (n : positive) (s : pstmt) : outcome E (stmt * positive) :=
  let block n l :=
    let* '(l', n') :=
      (fix convert_all (n : positive) (l : list pstmt) : outcome E (list stmt * positive) :=
         match l with
         | [] => Ok ([], n)
         | s1 :: rest =>
             let* '(s1', n1) := convert_stmt n s1 in
             let* '(rest', n2) := convert_all n1 rest in
             Ok (s1' :: rest', n2)
         end) n l in
    Ok (SBlock None l', n') in
  match s with
  | PConst name _ type init =>
      let* t := convert_option convert_type type in
      let* e := convert_expr init in
      Ok (SConst None name n t e, Pos.succ n)
  | PLet name _ type init =>
      let* t := convert_option convert_type type in
      let* e := convert_option convert_expr init in
      Ok (SLet None name n t e, Pos.succ n)
  | PStatic_Assert e =>
      let* x := convert_expr e in
      Ok (SStatic_Assert None x, n)
  | PIf_Statement _ condition l else_node =>
      let* c := convert_expr condition in
      let* '(b, n1) := block n l in
      match else_node with
      | None => Ok (SIf None c b None, n1)
      | Some s1 =>
          let* '(s1', n2) := convert_stmt n1 s1 in
          Ok (SIf None c b (Some s1'), n2)
      end
  | PWhile _ condition l =>
      let* c := convert_expr condition in
      let* '(b, n1) := block n l in
      Ok (SWhile None c b, n1)
  | PBreak => Ok (SControl None ctl_break None, n)
  | PContinue => Ok (SControl None ctl_continue None, n)
  | PReturn e =>
      let* x := convert_option convert_expr e in
      Ok (SControl None ctl_return x, n)
  | PAssignment name _ e =>
      let* x := convert_expr e in
      Ok (SAssign None name None x, n)
  | PBlock l => block n l
  | PExpr e =>
      let* x := convert_expr e in
      Ok (SExpr x, n)
  end.

(** The statements of a block (src/bms/ast.cpp:482-488), as above. *)
Definition convert_stmts {E} : positive -> list pstmt -> outcome E (list stmt * positive) :=
  fix convert_all (n : positive) (l : list pstmt) : outcome E (list stmt * positive) :=
    match l with
    | [] => Ok ([], n)
    | s1 :: rest =>
        let* '(s1', n1) := convert_stmt n s1 in
        let* '(rest', n2) := convert_all n1 rest in
        Ok (s1' :: rest', n2)
    end.

(** The parameters of a function (src/bms/ast.cpp:429-440, constructor 56-60). *)
Fixpoint convert_parameters {E} (n : positive) (l : list pparameter) : outcome E (list parameter * positive) :=
  match l with
  | [] => Ok ([], n)
  | p :: rest =>
      let* t := convert_type (pp_type p) in
      let* '(rest', n') := convert_parameters (Pos.succ n) rest in
      Ok (Param (pp_name p) n t :: rest', n')
  end.

(** Functions (src/bms/ast.cpp:413-451, constructor 100-110, src/bms/ast.hpp:289-292). *)
Definition convert_function {E} (n : positive) (f : pfunction) : outcome E (func * positive) :=
  let* '(params, n1) := convert_parameters (Pos.succ n) (pf_parameters f) in
  let* return_type := convert_type (pf_return_type f) in
  let* requires_clause := convert_option convert_expr (pf_requires f) in
  let* '(body, n2) := convert_stmts n1 (pf_body f) in
  Ok (Func (pf_name f) n None params return_type requires_clause (SBlock None body) false None unanalyzed, n2).

(** The declarations of a program (src/bms/ast.cpp:400-405). *)
Fixpoint convert_declarations {E} (n : positive) (l : list pdecl) : outcome E (list declaration) :=
  match l with
  | [] => Ok []
  | PD_Function f :: rest =>
      let* '(f', n1) := convert_function n f in
      let* rest' := convert_declarations n1 rest in
      Ok (Decl_Function f' :: rest')
  | PD_Statement s :: rest =>
      let* '(s', n1) := convert_stmt n s in
      let* rest' := convert_declarations n1 rest in
      Ok (Decl_Statement s' :: rest')
  end.

(** [Analyzed_Program::Analyzed_Program] (src/bms/ast.cpp:295-305,530-536). *)
Definition convert_program {E} (p : list pdecl) : outcome E (list declaration) := convert_declarations 1 p.

(** ** The annotations of a program *)

(** The walk of [Resolve_Annotations] (src/bms/analyze_annotations.cpp:337-404): the annotations of a node, then
    its children from left to right.  It is a walk over the syntax tree, whose nodes keep the annotations of
    the parser's tree; here it is a walk over the parser's tree.  The resolved annotations, which nothing
    reads, are dropped. *)
Fixpoint resolve_expr (e : pexpr) : outcome annotation_error unit :=
  match e with
  | PConversion e1 target => let* _ := resolve_expr e1 in resolve_type target
  | PIf lhs condition rhs =>
      let* _ := resolve_expr lhs in
      let* _ := resolve_expr condition in
      resolve_expr rhs
  | PBinary _ lhs rhs => let* _ := resolve_expr lhs in resolve_expr rhs
  | PPrefix _ e1 => resolve_expr e1
  | PCall _ args annotations _ =>
      let* _ := do_resolve co_function_call_expression annotations in
      (fix resolve_all (l : list pexpr) : outcome annotation_error unit :=
         match l with
         | [] => Ok tt
         | a :: rest => let* _ := resolve_expr a in resolve_all rest
         end) args
  | PId _ | PLiteral _ _ => Ok tt
  end
with resolve_type (t : ptype) : outcome annotation_error unit :=
  match t with
  | PType _ width => match width with None => Ok tt | Some e => resolve_expr e end
  end.

(** Null pointers (src/bms/analyze_annotations.cpp:388-394). *)
Definition resolve_option {A} (f : A -> outcome annotation_error unit) (x : option A) : outcome annotation_error unit :=
  match x with None => Ok tt | Some a => f a end.

(** Statements (src/bms/analyze_annotations.cpp:343-363). *)
Fixpoint resolve_stmt (s : pstmt) : outcome annotation_error unit :=
  let resolve_all :=
    fix resolve_all (l : list pstmt) : outcome annotation_error unit :=
      match l with
      | [] => Ok tt
      | s1 :: rest => let* _ := resolve_stmt s1 in resolve_all rest
      end in
  match s with
  | PConst _ annotations type init =>
      let* _ := do_resolve co_constant annotations in
      let* _ := resolve_option resolve_type type in
      resolve_expr init
  | PLet _ annotations type init =>
      let* _ := do_resolve co_variable annotations in
      let* _ := resolve_option resolve_type type in
      resolve_option resolve_expr init
  | PStatic_Assert e => resolve_expr e
  | PIf_Statement annotations condition l else_node =>
      let* _ := do_resolve co_if_statement annotations in
      let* _ := resolve_expr condition in
      let* _ := resolve_all l in
      match else_node with None => Ok tt | Some s1 => resolve_stmt s1 end
  | PWhile annotations condition l =>
      let* _ := do_resolve co_while_statement annotations in
      let* _ := resolve_expr condition in
      resolve_all l
  | PBreak | PContinue => Ok tt
  | PReturn e => resolve_option resolve_expr e
  | PAssignment _ annotations e =>
      let* _ := do_resolve co_assignment annotations in
      resolve_expr e
  | PBlock l => resolve_all l
  | PExpr e => resolve_expr e
  end.

(** [resolve_all] (src/bms/analyze_annotations.cpp:396-404). *)
Fixpoint resolve_list {A} (f : A -> outcome annotation_error unit) (l : list A) : outcome annotation_error unit :=
  match l with
  | [] => Ok tt
  | a :: rest => let* _ := f a in resolve_list f rest
  end.

(** Functions (src/bms/analyze_annotations.cpp:364-386). *)
Definition resolve_function (f : pfunction) : outcome annotation_error unit :=
  let* _ := do_resolve co_function (pf_annotations f) in
  let* _ := resolve_list (fun p => resolve_type (pp_type p)) (pf_parameters f) in
  let* _ := resolve_type (pf_return_type f) in
  let* _ := resolve_option resolve_expr (pf_requires f) in
  resolve_list resolve_stmt (pf_body f).

(** [resolve_annotations] (src/bms/analyze_annotations.cpp:573-578). *)
Definition resolve_annotations (p : list pdecl) : outcome annotation_error unit :=
  resolve_list (fun d => match d with PD_Function f => resolve_function f | PD_Statement s => resolve_stmt s end) p.
