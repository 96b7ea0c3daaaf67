(** The syntax tree.  Models src/bms/ast.hpp and src/bms/lookup_result.hpp.
    Source positions, parent pointers and annotations ([@...]) are not part of these trees.  The mutable
    members that analysis fills in ([m_const_value], [lookup_result], [concrete_width]) are fields of the
    constructors: analysis yields a new tree.  Children that are null pointers are [None]. *)
From Coq Require Import ZArith List Bool.
From Verif Require Import Prelude Types Ops Text Tables AbsOps.
Import ListNotations.
Open Scope Z_scope.

(** [Type_Type] (src/bms/concrete_type.hpp:13-22). *)
Inductive type_type : Type := tt_Void | tt_Bool | tt_Int | tt_Uint.

(** The kinds of nodes a lookup can lead to (src/bms/analyze.cpp:1016-1053): functions, [let] variables,
    constants, and the identifier that names the width of a bit-generic parameter type
    (src/bms/analyze_name_lookup.cpp:208-215). *)
Inductive decl_kind : Type := DFunction | DLet | DConst | DWidth.

(** [Lookup_Result] (src/bms/lookup_result.hpp:12-18). A pointer is a [positive]: the identity of the node
    or parameter; [LNode] also holds which alternative of [Some_Node] the pointer leads to. *)
Inductive lookup : Type :=
| LNode (kind : decl_kind) (node : positive)
| LParameter (parameter : positive)
| LBuiltin (function : builtin).

(** The expression nodes of src/bms/ast.hpp:785-1083 and [Type] (391-440). [cv] is [m_const_value] (102),
    [lk] is [lookup_result] (970, 1032: [None] is [Monostate]). Operators are stored as their
    [Expression_Type] only: [m_op] determines it (src/bms/ast.cpp:17-52).  The flag [bit_generic] of
    [Id_Expression] (1033) and its identity are [generic]. *)
Inductive expr : Type :=
| EConversion (cv : option avalue) (e : expr) (target : type_node)
| EIf (cv : option avalue) (lhs condition rhs : expr)
| EBinary (cv : option avalue) (op : expr_kind) (lhs rhs : expr)
| EPrefix (cv : option avalue) (op : expr_kind) (e : expr)
| ECall (cv : option avalue) (name : text) (lk : option lookup) (is_statement : bool)
    (args : list expr)
| EId (cv : option avalue) (name : text) (lk : option lookup) (generic : option positive)
| ELiteral (cv : option avalue) (lit : text) (type : token_type)
with type_node : Type :=
| Type_Node (cv : option avalue) (type : type_type) (width : option expr) (concrete_width : option Z).

(** [Control_Statement_Type] (src/bms/ast.hpp:643). *)
Inductive control_type : Type := ctl_break | ctl_continue | ctl_return.

(** The statement nodes of src/bms/ast.hpp:442-783. The pointer to a [Const] or [Let] node, which is what
    identifies the variable, is [self]. *)
Inductive stmt : Type :=
| SConst (cv : option avalue) (name : text) (self : positive) (type : option type_node) (init : expr)
| SLet (cv : option avalue) (name : text) (self : positive) (type : option type_node)
    (init : option expr)
| SStatic_Assert (cv : option avalue) (e : expr)
| SIf (cv : option avalue) (condition : expr) (if_block : stmt) (else_node : option stmt)
| SWhile (cv : option avalue) (condition : expr) (block : stmt)
| SControl (cv : option avalue) (type : control_type) (e : option expr)
| SAssign (cv : option avalue) (name : text) (lk : option lookup) (e : expr)
| SBlock (cv : option avalue) (children : list stmt)
| SExpr (e : expr).

(** [Parameter] (src/bms/ast.hpp:25-63); [p_self] is its address. *)
Record parameter : Type := Param { p_name : text; p_self : positive; p_type : type_node }.

(** [Analysis_Level] (src/bms/analysis_level.hpp:15-31). *)
Inductive level : Type := unanalyzed | shallow | full | for_constant_evaluation.

(** [Function] (src/bms/ast.hpp:253-389). [f_address] is [vm_address], [None] for [invalid_vm_address].
    Instances of generic functions are not part of the model. *)
Record func : Type := Func {
  f_name : text;
  f_self : positive;
  f_cv : option avalue;
  f_params : list parameter;
  f_return : type_node;
  f_requires : option expr;
  f_body : stmt;
  f_generic : bool;
  f_address : option Z;
  f_level : level
}.

(** [get_const_value] (src/bms/ast.hpp:1273-1281). *)
Definition expr_cv (e : expr) : option avalue :=
  match e with
  | EConversion cv _ _ | EIf cv _ _ _ | EBinary cv _ _ _ | EPrefix cv _ _ | ECall cv _ _ _ _
  | EId cv _ _ _ | ELiteral cv _ _ => cv
  end.
(** src/bms/ast.hpp:1278-1281, for statements. *)
Definition stmt_cv (s : stmt) : option avalue :=
  match s with
  | SConst cv _ _ _ _ | SLet cv _ _ _ _ | SStatic_Assert cv _ | SIf cv _ _ _ | SWhile cv _ _
  | SControl cv _ _ | SAssign cv _ _ _ | SBlock cv _ => cv
  | SExpr e => expr_cv e
  end.
(** src/bms/ast.hpp:125-128, for [Type] nodes. *)
Definition type_cv (t : type_node) : option avalue := match t with Type_Node cv _ _ _ => cv end.
(** [Type::get_type] (src/bms/ast.hpp:404-407). *)
Definition node_type (t : type_node) : type_type := match t with Type_Node _ k _ _ => k end.

(** [std::optional::value] (e.g. src/bms/vm/codegen.cpp:275): throws when empty. *)
Definition value_of {E A} (x : option A) : outcome E A :=
  match x with Some a => Ok a | None => Abort end.

(** [Type::concrete_type] (src/bms/ast.hpp:423-434). *)
Definition concrete_type {E} (t : type_node) : outcome E (option ctype) :=
  match t with
  | Type_Node _ k _ w =>
      match k with
      | tt_Uint =>
          match w with
          | Some n => let* c := concrete_type_Uint n in Ok (Some c)
          | None => Ok None
          end
      | _ =>
          match w with
          | Some _ => Abort
          | None =>
              Ok (Some (match k with tt_Void => TVoid | tt_Bool => TBool | _ => TInt end))
          end
      end
  end.

(** [concrete_type().value()] (e.g. src/bms/vm/codegen.cpp:325). *)
Definition concrete_type_value {E} (t : type_node) : outcome E ctype :=
  let* c := concrete_type t in value_of c.
