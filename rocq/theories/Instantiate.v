(** Instances of bit-generic functions.  Models src/bms/instantiate.cpp, src/bms/deduction.hpp, the part of
    src/bms/ast.hpp about instances, and the deduction of widths in src/bms/analyze.cpp.

    - New nodes get new identities, counted from [i_next] on.
    - [m_remap] and [m_parameter_remap] are one map, as nodes and parameters have different identities.  It
      only has the nodes that lookups can lead to.  The identifier that names a width is identified by its
      parameter; in the copy it gets its new identity when names are updated.
    - Parents and positions are not part of the trees; but [set_parent] of a missing child is. *)
From Coq Require Import ZArith List Bool.
From Verif Require Import Prelude Types Ops Text Tables AbsOps Ast.
Import ListNotations.
Open Scope Z_scope.

(** [Widths] (src/bms/deduction.hpp:15). *)
Inductive widths : Type := W_single (w : Z) | W_list (l : list Z).

(** [Function::Instance] (src/bms/ast.hpp:262-279); the handle is the function itself. *)
Record instance : Type := Instance { i_widths : list Z; i_function : func }.

(** The remaps, and the identity of the next node (src/bms/instantiate.cpp:28-30). *)
Record copy_state : Type := Copy_State { i_map : list (positive * positive); i_next : positive }.

(** [unordered_map::find] (src/bms/instantiate.cpp:192, 197). *)
Fixpoint find_copy (m : list (positive * positive)) (n : positive) : option positive :=
  match m with
  | [] => None
  | (k, v) :: r => if Pos.eqb k n then Some v else find_copy r n
  end.

Section Instantiate.
Context {E : Type}.

(** [get_width] (src/bms/deduction.hpp:17-27). *)
Definition get_width (w : widths) (i : nat) : outcome E Z :=
  match w with
  | W_single n => Ok n
  | W_list l => value_of (nth_error l i)
  end.

(** [has_widths] (src/bms/ast.hpp:269-277), from index [i] on. *)
Fixpoint has_widths (l : list Z) (w : widths) (i : nat) : outcome E bool :=
  match l with
  | [] => Ok true
  | x :: r => let* y := get_width w i in if x =? y then has_widths r w (S i) else Ok false
  end.

(** The loop of [find_instance] (src/bms/ast.hpp:377-382). *)
Fixpoint find_instance (l : list instance) (w : widths) : outcome E (option instance) :=
  match l with
  | [] => Ok None
  | i :: r => let* b := has_widths (i_widths i) w 0 in if b then Ok (Some i) else find_instance r w
  end.

(** [m_program.insert] and [m_remap.emplace] (src/bms/instantiate.cpp:126-127, 151-152): an entry that is
    there stays. *)
Definition insert (n : positive) (s : copy_state) : positive * copy_state :=
  (i_next s,
   Copy_State (match find_copy (i_map s) n with Some _ => i_map s | None => (n, i_next s) :: i_map s end)
              (Pos.succ (i_next s))).

(** The copy of a child that may be missing (src/bms/instantiate.cpp:153-156): [set_parent( *child, ...)]. *)
Definition copy_child {A} (f : A -> outcome E A) (x : option A) : outcome E (option A) :=
  match x with
  | None => UB
  | Some a => let* a' := f a in Ok (Some a')
  end.

(** [deep_copy_for_instantiation] for expressions and types (src/bms/instantiate.cpp:119-158), where there
    is nothing to be put into the map. *)
Fixpoint copy_expr (e : expr) : outcome E expr :=
  match e with
  | EConversion cv e1 t =>
      let* e1' := copy_expr e1 in
      let* t' := copy_type t in
      Ok (EConversion cv e1' t')
  | EIf cv l c r =>
      let* l' := copy_expr l in
      let* c' := copy_expr c in
      let* r' := copy_expr r in
      Ok (EIf cv l' c' r')
  | EBinary cv op l r =>
      let* l' := copy_expr l in
      let* r' := copy_expr r in
      Ok (EBinary cv op l' r')
  | EPrefix cv op e1 =>
      let* e1' := copy_expr e1 in
      Ok (EPrefix cv op e1')
  | ECall cv name lk st args =>
      let* args' :=
        (fix all (l : list expr) : outcome E (list expr) :=
           match l with
           | [] => Ok []
           | a :: r =>
               let* a' := copy_expr a in
               let* r' := all r in
               Ok (a' :: r')
           end) args in
      Ok (ECall cv name lk st args')
  | EId cv name lk generic => Ok (EId cv name lk generic)
  | ELiteral cv lit t => Ok (ELiteral cv lit t)
  end
with copy_type (t : type_node) : outcome E type_node :=
  match t with
  | Type_Node cv k None w => UB
  | Type_Node cv k (Some e) w =>
      let* e' := copy_expr e in
      Ok (Type_Node cv k (Some e') w)
  end.

(** [deep_copy_for_instantiation] for statements (src/bms/instantiate.cpp:151-157). *)
Fixpoint copy_stmt (x : stmt) (s : copy_state) : outcome E (stmt * copy_state) :=
  match x with
  | SConst cv name self t e =>
      let '(self', s) := insert self s in
      let* t' := copy_child copy_type t in
      let* e' := copy_expr e in
      Ok (SConst cv name self' t' e', s)
  | SLet cv name self t e =>
      let '(self', s) := insert self s in
      let* t' := copy_child copy_type t in
      let* e' := copy_child copy_expr e in
      Ok (SLet cv name self' t' e', s)
  | SStatic_Assert cv e =>
      let* e' := copy_expr e in
      Ok (SStatic_Assert cv e', s)
  | SIf cv c b e =>
      let* c' := copy_expr c in
      let* '(b', s) := copy_stmt b s in
      match e with
      | None => UB
      | Some e1 =>
          let* '(e', s) := copy_stmt e1 s in
          Ok (SIf cv c' b' (Some e'), s)
      end
  | SWhile cv c b =>
      let* c' := copy_expr c in
      let* '(b', s) := copy_stmt b s in
      Ok (SWhile cv c' b', s)
  | SControl cv k e =>
      let* e' := copy_child copy_expr e in
      Ok (SControl cv k e', s)
  | SAssign cv name lk e =>
      let* e' := copy_expr e in
      Ok (SAssign cv name lk e', s)
  | SBlock cv l =>
      let* '(l', s) :=
        (fix all (l : list stmt) (s : copy_state) : outcome E (list stmt * copy_state) :=
           match l with
           | [] => Ok ([], s)
           | a :: r =>
               let* '(a', s) := copy_stmt a s in
               let* '(r', s) := all r s in
               Ok (a' :: r', s)
           end) l s in
      Ok (SBlock cv l', s)
  | SExpr e =>
      let* e' := copy_expr e in
      Ok (SExpr e', s)
  end.

(** [deep_copy_parameters] (src/bms/instantiate.cpp:161-178). *)
Fixpoint copy_params (l : list parameter) (s : copy_state) : outcome E (list parameter * copy_state) :=
  match l with
  | [] => Ok ([], s)
  | p :: r =>
      assert_then (match find_copy (i_map s) (p_self p) with None => true | Some _ => false end)
        (let '(self, s) := insert (p_self p) s in
         let* t := copy_type (p_type p) in
         let* '(r', s) := copy_params r s in
         Ok (Param (p_name p) self t :: r', s))
  end.

(** [deep_copy_for_instantiation] for functions (src/bms/instantiate.cpp:125-149), with
    [copy_for_instantiation] (src/bms/ast.cpp:115-124). *)
Definition copy_function (f : func) (s : copy_state) : outcome E (func * copy_state) :=
  assert_then (f_generic f)
    (let '(self, s) := insert (f_self f) s in
     let* '(params, s) := copy_params (f_params f) s in
     let* ret := copy_type (f_return f) in
     let* req := match f_requires f with
                       | None => Ok None
                       | Some e => let* e' := copy_expr e in Ok (Some e')
                       end in
     let* '(body, s) := copy_stmt (f_body f) s in
     Ok (Func (f_name f) self (f_cv f) params ret req body false None unanalyzed, s)).

Section Update.
Variable m : list (positive * positive).

(** [Remap_Lookup_Result] (src/bms/instantiate.cpp:180-199): [at] throws if there is no entry. *)
Definition remap_lookup (lk : option lookup) : outcome E (option lookup) :=
  match lk with
  | None => Ok None
  | Some (LBuiltin b) => Ok (Some (LBuiltin b))
  | Some (LNode k n) => let* n' := value_of (find_copy m n) in Ok (Some (LNode k n'))
  | Some (LParameter n) => let* n' := value_of (find_copy m n) in Ok (Some (LParameter n'))
  end.

(** The identity of the copy (see above). *)
Definition copy_of (n : positive) : positive := match find_copy m n with Some q => q | None => n end.

(** [deep_update_name_lookup] for expressions and types (src/bms/instantiate.cpp:201-234).  For an
    [Id_Expression], the template is chosen at line 215, as its object parameter is not [const]. *)
Fixpoint update_expr (e : expr) : outcome E expr :=
  match e with
  | EConversion cv e1 t =>
      let* e1' := update_expr e1 in
      let* t' := update_type t in
      Ok (EConversion cv e1' t')
  | EIf cv l c r =>
      let* l' := update_expr l in
      let* c' := update_expr c in
      let* r' := update_expr r in
      Ok (EIf cv l' c' r')
  | EBinary cv op l r =>
      let* l' := update_expr l in
      let* r' := update_expr r in
      Ok (EBinary cv op l' r')
  | EPrefix cv op e1 =>
      let* e1' := update_expr e1 in
      Ok (EPrefix cv op e1')
  | ECall cv name lk st args =>
      let* lk' := remap_lookup lk in
      let* args' :=
        (fix all (l : list expr) : outcome E (list expr) :=
           match l with
           | [] => Ok []
           | a :: r =>
               let* a' := update_expr a in
               let* r' := all r in
               Ok (a' :: r')
           end) args in
      Ok (ECall cv name lk' st args')
  | EId cv name lk generic =>
      let* lk' := remap_lookup lk in
      Ok (EId cv name lk' (option_map copy_of generic))
  | ELiteral _ _ _ => Ok e
  end
with update_type (t : type_node) : outcome E type_node :=
  match t with
  | Type_Node cv k None w => Ok t
  | Type_Node cv k (Some e) w =>
      let* e' := update_expr e in
      Ok (Type_Node cv k (Some e') w)
  end.

(** A child that may be missing (src/bms/instantiate.cpp:220-222). *)
Definition update_child {A} (f : A -> outcome E A) (x : option A) : outcome E (option A) :=
  match x with
  | None => Ok None
  | Some a => let* a' := f a in Ok (Some a')
  end.

(** [deep_update_name_lookup] for statements (src/bms/instantiate.cpp:218-238). *)
Fixpoint update_stmt (x : stmt) : outcome E stmt :=
  match x with
  | SConst cv name self t e =>
      let* t' := update_child update_type t in
      let* e' := update_expr e in
      Ok (SConst cv name self t' e')
  | SLet cv name self t e =>
      let* t' := update_child update_type t in
      let* e' := update_child update_expr e in
      Ok (SLet cv name self t' e')
  | SStatic_Assert cv e =>
      let* e' := update_expr e in
      Ok (SStatic_Assert cv e')
  | SIf cv c b e =>
      let* c' := update_expr c in
      let* b' := update_stmt b in
      match e with
      | None => Ok (SIf cv c' b' None)
      | Some e1 =>
          let* e' := update_stmt e1 in
          Ok (SIf cv c' b' (Some e'))
      end
  | SWhile cv c b =>
      let* c' := update_expr c in
      let* b' := update_stmt b in
      Ok (SWhile cv c' b')
  | SControl cv k e =>
      let* e' := update_child update_expr e in
      Ok (SControl cv k e')
  | SAssign cv name lk e =>
      let* lk' := remap_lookup lk in
      let* e' := update_expr e in
      Ok (SAssign cv name lk' e')
  | SBlock cv l =>
      let* l' :=
        (fix all (l : list stmt) : outcome E (list stmt) :=
           match l with
           | [] => Ok []
           | a :: r =>
               let* a' := update_stmt a in
               let* r' := all r in
               Ok (a' :: r')
           end) l in
      Ok (SBlock cv l')
  | SExpr e =>
      let* e' := update_expr e in
      Ok (SExpr e')
  end.

(** The types of the parameters (src/bms/instantiate.cpp:225-227). *)
Fixpoint update_params (l : list parameter) : outcome E (list parameter) :=
  match l with
  | [] => Ok []
  | p :: r =>
      let* t := update_type (p_type p) in
      let* r' := update_params r in
      Ok (Param (p_name p) (p_self p) t :: r')
  end.

(** [deep_update_name_lookup] for functions (src/bms/instantiate.cpp:224-231). *)
Definition update_function (f : func) : outcome E func :=
  let* params := update_params (f_params f) in
  let* ret := update_type (f_return f) in
  let* req := update_child update_expr (f_requires f) in
  let* body := update_stmt (f_body f) in
  Ok (Func (f_name f) (f_self f) (f_cv f) params ret req body (f_generic f) (f_address f) (f_level f)).

End Update.

(** [deep_copy] (src/bms/instantiate.cpp:104-117); the maps of a new [Instantiator] are empty (32-38). *)
Definition deep_copy (f : func) (next : positive) : outcome E (func * positive) :=
  let* '(f1, s) := copy_function f (Copy_State [] next) in
  let* f2 := update_function (i_map s) f1 in
  Ok (f2, i_next s).

(** The loop of [substitute_widths] (src/bms/instantiate.cpp:85-99); [widths] are those before. *)
Fixpoint substitute_params (l : list parameter) (w : widths) (before : list Z)
  : outcome E (list parameter * list Z) :=
  match l with
  | [] => Ok ([], before)
  | p :: r =>
      match p_type p with
      | Type_Node _ _ None _ =>
          let* '(r', ws) := substitute_params r w before in
          Ok (p :: r', ws)
      | Type_Node cv k (Some e) cw =>
          assert_then (match k with tt_Uint => true | _ => false end)
            (match e with
             | EId _ name lk (Some g) =>
                 let* n := get_width w (length before) in
                 let* '(r', ws) := substitute_params r w (before ++ [n]) in
                 Ok (Param (p_name p) (p_self p)
                       (Type_Node cv k (Some (EId (Some (AV TInt (Some n))) name lk (Some g))) (Some n)) :: r',
                     ws)
             | _ =>
                 let* '(r', ws) := substitute_params r w before in
                 Ok (p :: r', ws)
             end)
      end
  end.

(** [substitute_widths] (src/bms/instantiate.cpp:73-102). *)
Definition substitute_widths (f : func) (w : widths) : outcome E (func * list Z) :=
  assert_then (negb (f_generic f))
    (let* '(params, ws) := substitute_params (f_params f) w [] in
     Ok (Func (f_name f) (f_self f) (f_cv f) params (f_return f) (f_requires f) (f_body f) (f_generic f)
           (f_address f) (f_level f), ws)).

(** [instantiate_function] (src/bms/instantiate.cpp:53-70): the instance, the instances of the function
    afterwards, and the next identity. *)
Definition instantiate_function (f : func) (instances : list instance) (w : widths) (next : positive)
  : outcome E (instance * list instance * positive) :=
  assert_then (f_generic f)
    (let* existing := find_instance instances w in
     match existing with
     | Some i => Ok (i, instances, next)
     | None =>
         let* '(g, next) := deep_copy f next in
         let* '(g, ws) := substitute_widths g w in
         let i := Instance ws g in
         Ok (i, instances ++ [i], next)
     end).

(** [instantiate_all] (src/bms/instantiate.cpp:40-51), for the functions of the program with their
    instances. *)
Fixpoint instantiate_all (l : list (func * list instance)) (w : widths) (next : positive)
  : outcome E (list (func * list instance) * positive) :=
  match l with
  | [] => Ok ([], next)
  | (f, instances) :: r =>
      let* '(_, instances', next) := instantiate_function f instances w next in
      let* '(r', next) := instantiate_all r w next in
      Ok ((f, instances') :: r', next)
  end.

End Instantiate.

(** An argument whose type is no [Uint] where a width is deduced (src/bms/analyze.cpp:843-849). *)
Inductive deduction_error : Type := width_deduction_from_non_uint.

(** The deduction of widths from arguments (src/bms/analyze.cpp:828-852), for as many arguments as
    parameters; [get_if] of a null pointer fails an assertion (src/common/variant.hpp:438-444). *)
Fixpoint deduce_widths (params : list parameter) (args : list ctype) : outcome deduction_error (list Z) :=
  match params, args with
  | p :: params', a :: args' =>
      match p_type p with
      | Type_Node cv _ width cw =>
          assert_then (match cv with None => true | Some _ => false end)
            (match cw with
             | Some _ => deduce_widths params' args'
             | None =>
                 match width with
                 | None => Abort
                 | Some (EId _ _ _ (Some _)) =>
                     match a with
                     | TUint n => let* r := deduce_widths params' args' in Ok (n :: r)
                     | _ => Err width_deduction_from_non_uint
                     end
                 | Some _ => deduce_widths params' args'
                 end
             end)
      end
  | _, _ => Ok []
  end.

(** The instance that a call uses (src/bms/analyze.cpp:828-870). *)
Definition instance_for_call (f : func) (instances : list instance) (args : list ctype) (next : positive)
  : outcome deduction_error (instance * list instance * positive) :=
  assert_then (match f_params f with [] => false | _ :: _ => true end)
    (let* ws := deduce_widths (f_params f) args in
     instantiate_function f instances (W_list ws) next).
