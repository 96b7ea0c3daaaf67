(** Name lookup.  Models src/bms/symbol_table.hpp and src/bms/analyze_name_lookup.cpp.
    - Symbol tables are lists of scopes, innermost first; the last one is that of the built-in functions.
      A scope ([std::unordered_map]) is an association list.
    - The node or parameter that an error is about, and source positions, are left out of errors.
    - Analysis changes trees in place; here it yields new trees, and on failure nothing. *)
From Coq Require Import ZArith Ascii String List Bool.
From Verif Require Import Prelude Types Ops Text Tables AbsOps Ast.
Import ListNotations.
Open Scope list_scope.

(** The error codes that name lookup uses (src/bms/analysis_error.hpp:18-31). *)
Inductive lookup_code : Type :=
| failed_to_define_global_const | failed_to_define_function | failed_to_define_parameter
| failed_to_define_variable | reference_to_undefined_variable | assignment_of_undefined_variable
| call_to_undefined_function.

(** [Analysis_Error] with the cause that the builder is given (src/bms/analyze_name_lookup.cpp:76-79). *)
Record lookup_error : Type := Lookup_Error { le_code : lookup_code; le_cause : option lookup }.

(** [map_type] (src/bms/symbol_table.hpp:26). *)
Definition scope : Type := list (text * lookup).
(** [Symbol_Table] with its parents (src/bms/symbol_table.hpp:29-30). *)
Definition symbols : Type := list scope.

(** [unordered_map::find] (src/bms/symbol_table.hpp:90). *)
Fixpoint scope_find (s : scope) (x : text) : option lookup :=
  match s with
  | [] => None
  | (y, d) :: s' => if text_eqb x y then Some d else scope_find s' x
  end.

(** [Symbol_Table::find] (src/bms/symbol_table.hpp:83-94): the parent comes first. *)
Fixpoint sym_find (t : symbols) (x : text) : option lookup :=
  match t with
  | [] => None
  | s :: parent =>
      match sym_find parent x with
      | Some d => Some d
      | None => scope_find s x
      end
  end.

(** [Symbol_Table::emplace] (src/bms/symbol_table.hpp:67-81), with [shadow] false
    (src/bms/analyze_name_lookup.cpp:19); the existing entry on failure. *)
Definition emplace (t : symbols) (x : text) (d : lookup) : lookup + symbols :=
  match t with
  | [] => inr [[(x, d)]] (* there is always an innermost table *)
  | s :: parent =>
      match sym_find parent x with
      | Some old => inl old
      | None =>
          match scope_find s x with
          | Some old => inl old
          | None => inr (((x, d) :: s) :: parent)
          end
      end
  end.

(** A table with the given parent (src/bms/symbol_table.hpp:39-42). *)
Definition nested (t : symbols) : symbols := [] :: t.

(** [emplace], or an error with the existing entry as its cause (e.g.
    src/bms/analyze_name_lookup.cpp:74-80). *)
Definition define (t : symbols) (x : text) (d : lookup) (c : lookup_code) : outcome lookup_error symbols :=
  match emplace t x d with
  | inl old => Err (Lookup_Error c (Some old))
  | inr t' => Ok t'
  end.

(** [builtin_symbols] (src/bms/analyze_name_lookup.cpp:17). *)
Definition builtin_scope : scope := [(str "assert", LBuiltin builtin_assert)].

(** Expressions (src/bms/analyze_name_lookup.cpp:163-168, 275-299) and types (163-168). *)
Fixpoint nl_expr (t : symbols) (e : expr) {struct e} : outcome lookup_error expr :=
  match e with
  | EConversion cv e1 target =>
      let* e1' := nl_expr t e1 in
      let* target' := nl_type t target in
      Ok (EConversion cv e1' target')
  | EIf cv lhs condition rhs =>
      let* lhs' := nl_expr t lhs in
      let* condition' := nl_expr t condition in
      let* rhs' := nl_expr t rhs in
      Ok (EIf cv lhs' condition' rhs')
  | EBinary cv op lhs rhs =>
      let* lhs' := nl_expr t lhs in
      let* rhs' := nl_expr t rhs in
      Ok (EBinary cv op lhs' rhs')
  | EPrefix cv op e1 =>
      let* e1' := nl_expr t e1 in
      Ok (EPrefix cv op e1')
  | ECall cv name _ is_statement args => (* lines 275-286 *)
      match sym_find t name with
      | Some d =>
          let* args' :=
            (fix all (l : list expr) : outcome lookup_error (list expr) :=
               match l with
               | [] => Ok []
               | a :: rest =>
                   let* a' := nl_expr t a in
                   let* rest' := all rest in
                   Ok (a' :: rest')
               end) args in
          Ok (ECall cv name (Some d) is_statement args')
      | None => Err (Lookup_Error call_to_undefined_function None)
      end
  | EId cv name _ generic => (* lines 288-298 *)
      match sym_find t name with
      | Some d => Ok (EId cv name (Some d) generic)
      | None => Err (Lookup_Error reference_to_undefined_variable None)
      end
  | ELiteral _ _ _ => Ok e
  end
with nl_type (t : symbols) (ty : type_node) {struct ty} : outcome lookup_error type_node :=
  match ty with
  | Type_Node cv k (Some width) w =>
      let* width' := nl_expr t width in
      Ok (Type_Node cv k (Some width') w)
  | Type_Node _ _ None _ => Ok ty
  end.

(** Null handles are skipped (src/bms/analyze_name_lookup.cpp:142-144). *)
Definition nl_option {A} (f : A -> outcome lookup_error A) (x : option A) : outcome lookup_error (option A) :=
  match x with
  | None => Ok None
  | Some a => let* a' := f a in Ok (Some a')
  end.

(** Statements (src/bms/analyze_name_lookup.cpp:163-168, 224-273); yields also the table, to which
    declarations are added. *)
Fixpoint nl_stmt (t : symbols) (s : stmt) {struct s} : outcome lookup_error (stmt * symbols) :=
  match s with
  | SConst cv name self type init => (* lines 231-242 *)
      let* t' := define t name (LNode DConst self) failed_to_define_variable in
      let* type' := nl_option (nl_type t') type in
      let* init' := nl_expr t' init in
      Ok (SConst cv name self type' init', t')
  | SLet cv name self type init => (* lines 244-255 *)
      let* t' := define t name (LNode DLet self) failed_to_define_variable in
      let* type' := nl_option (nl_type t') type in
      let* init' := nl_option (nl_expr t') init in
      Ok (SLet cv name self type' init', t')
  | SStatic_Assert cv e => (* lines 257-261 *)
      let* e' := nl_expr t e in
      Ok (SStatic_Assert cv e', t)
  | SIf cv condition if_block else_node =>
      let* condition' := nl_expr t condition in
      let* '(if_block', t1) := nl_stmt t if_block in
      match else_node with
      | None => Ok (SIf cv condition' if_block' None, t1)
      | Some s1 =>
          let* '(s1', t2) := nl_stmt t1 s1 in
          Ok (SIf cv condition' if_block' (Some s1'), t2)
      end
  | SWhile cv condition block =>
      let* condition' := nl_expr t condition in
      let* '(block', t') := nl_stmt t block in
      Ok (SWhile cv condition' block', t')
  | SControl cv type e =>
      let* e' := nl_option (nl_expr t) e in
      Ok (SControl cv type e', t)
  | SAssign cv name _ e => (* lines 263-273 *)
      match sym_find t name with
      | Some d =>
          let* e' := nl_expr t e in
          Ok (SAssign cv name (Some d) e', t)
      | None => Err (Lookup_Error assignment_of_undefined_variable None)
      end
  | SBlock cv children => (* lines 224-229 *)
      let* children' :=
        (fix all (t : symbols) (l : list stmt) : outcome lookup_error (list stmt) :=
           match l with
           | [] => Ok []
           | s1 :: rest =>
               let* '(s1', t1) := nl_stmt t s1 in
               let* rest' := all t1 rest in
               Ok (s1' :: rest')
           end) (nested t) children in
      Ok (SBlock cv children', t)
  | SExpr e =>
      let* e' := nl_expr t e in
      Ok (SExpr e', t)
  end.

(** [analyze_parameter] (src/bms/analyze_name_lookup.cpp:192-221); also whether the function becomes
    generic.  The identifier that names a width is identified by its parameter. *)
Definition nl_parameter (t : symbols) (p : parameter) : outcome lookup_error (parameter * bool * symbols) :=
  let* t' := define t (p_name p) (LParameter (p_self p)) failed_to_define_parameter in
  match p_type p with
  | Type_Node _ _ None _ => Ok (p, false, t')
  | Type_Node cv k (Some g) w =>
      match nl_expr t' g with
      | Ok g' => Ok (Param (p_name p) (p_self p) (Type_Node cv k (Some g') w), false, t')
      | Err e =>
          match le_code e with
          | reference_to_undefined_variable =>
              match g with
              | EId cv' name lk _ =>
                  let t'' :=
                    match emplace t' name (LNode DWidth (p_self p)) with
                    | inl _ => t'
                    | inr t'' => t''
                    end in
                  Ok (Param (p_name p) (p_self p)
                        (Type_Node cv k (Some (EId cv' name lk (Some (p_self p)))) w), true, t'')
              | _ => Err e
              end
          | _ => Abort (* line 206 *)
          end
      | Abort => Abort
      | UB => UB
      end
  end.

(** The parameters in order (src/bms/analyze_name_lookup.cpp:173-177). *)
Fixpoint nl_parameters (t : symbols) (l : list parameter)
  : outcome lookup_error (list parameter * bool * symbols) :=
  match l with
  | [] => Ok ([], false, t)
  | p :: rest =>
      let* '(p', g, t1) := nl_parameter t p in
      let* '(rest', g', t2) := nl_parameters t1 rest in
      Ok (p' :: rest', g || g', t2)
  end.

(** Functions (src/bms/analyze_name_lookup.cpp:170-190), with the table made at line 125. *)
Definition nl_function (t : symbols) (f : func) : outcome lookup_error func :=
  let* '(params, generic, t1) := nl_parameters (nested t) (f_params f) in
  let* ret := nl_type t1 (f_return f) in
  let* req := nl_option (nl_expr t1) (f_requires f) in
  let* '(body, _) := nl_stmt t1 (f_body f) in
  Ok (Func (f_name f) (f_self f) (f_cv f) params ret req body (f_generic f || generic) (f_address f)
        (f_level f)).

(** Children of the [Program] node (src/bms/ast.hpp:205-250). *)
Inductive declaration : Type := Decl_Function (f : func) | Decl_Statement (s : stmt).

(** [Register_Global_Declarations] for one child (src/bms/analyze_name_lookup.cpp:67-107). *)
Definition nl_register (t : symbols) (d : declaration) : outcome lookup_error symbols :=
  match d with
  | Decl_Function f => define t (f_name f) (LNode DFunction (f_self f)) failed_to_define_function
  | Decl_Statement (SConst _ name self _ _) => define t name (LNode DConst self) failed_to_define_global_const
  | Decl_Statement (SStatic_Assert _ _) => Ok t
  | Decl_Statement _ => Abort
  end.

(** The first pass (src/bms/analyze_name_lookup.cpp:46, 57-65). *)
Fixpoint nl_register_all (t : symbols) (l : list declaration) : outcome lookup_error symbols :=
  match l with
  | [] => Ok t
  | d :: rest => let* t' := nl_register t d in nl_register_all t' rest
  end.

(** [find(name) == handle] (src/bms/analyze_name_lookup.cpp:115, 122). *)
Definition is_node (r : option lookup) (k : decl_kind) (n : positive) : bool :=
  match r with
  | Some (LNode k' n') =>
      match k, k' with
      | DFunction, DFunction | DLet, DLet | DConst, DConst | DWidth, DWidth => Pos.eqb n n'
      | _, _ => false
      end
  | _ => false
  end.

(** [Analyze_Symbols_Global] for one child (src/bms/analyze_name_lookup.cpp:109-138). *)
Definition nl_global (t : symbols) (d : declaration) : outcome lookup_error declaration :=
  match d with
  | Decl_Statement (SConst cv name self type init) =>
      let* _ := assert_then (is_node (sym_find t name) DConst self) (Ok tt) in
      let* type' := nl_option (nl_type t) type in
      let* init' := nl_expr t init in
      Ok (Decl_Statement (SConst cv name self type' init'))
  | Decl_Function f =>
      let* _ := assert_then (is_node (sym_find t (f_name f)) DFunction (f_self f)) (Ok tt) in
      let* f' := nl_function t f in
      Ok (Decl_Function f')
  | Decl_Statement (SStatic_Assert cv e) =>
      let* e' := nl_expr t e in
      Ok (Decl_Statement (SStatic_Assert cv e'))
  | Decl_Statement _ => Abort
  end.

(** The second pass (src/bms/analyze_name_lookup.cpp:51, 57-65). *)
Fixpoint nl_global_all (t : symbols) (l : list declaration) : outcome lookup_error (list declaration) :=
  match l with
  | [] => Ok []
  | d :: rest =>
      let* d' := nl_global t d in
      let* rest' := nl_global_all t rest in
      Ok (d' :: rest')
  end.

(** [analyze_name_lookup] (src/bms/analyze_name_lookup.cpp:42-52, 303-307). *)
Definition name_lookup (l : list declaration) : outcome lookup_error (list declaration) :=
  let* t := nl_register_all [[]; builtin_scope] l in
  nl_global_all t l.
