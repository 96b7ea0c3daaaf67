(** What name lookup should do: lexical scoping without shadowing, as relations between a program and the
    same program with the results of lookups.  This does not model code of the repository. *)
From Coq Require Import ZArith Ascii String List Bool.
From Verif Require Import Prelude Types Ops Text Tables AbsOps Ast NameLookup.
Import ListNotations.
Open Scope list_scope.

(** The declarations that are visible at some place, with their names. *)
Definition visible : Type := list (text * lookup).
Definition names (G : visible) : list text := map fst G.

(** An expression without results of lookups. *)
Fixpoint strip (e : expr) : expr :=
  match e with
  | EConversion cv e1 target => EConversion cv (strip e1) (strip_type target)
  | EIf cv lhs condition rhs => EIf cv (strip lhs) (strip condition) (strip rhs)
  | EBinary cv op lhs rhs => EBinary cv op (strip lhs) (strip rhs)
  | EPrefix cv op e1 => EPrefix cv op (strip e1)
  | ECall cv name _ is_statement args => ECall cv name None is_statement (map strip args)
  | EId cv name _ generic => EId cv name None generic
  | ELiteral _ _ _ => e
  end
with strip_type (t : type_node) : type_node :=
  match t with
  | Type_Node cv k width w => Type_Node cv k (match width with Some e => Some (strip e) | None => None end) w
  end.

(** The uses of names in an expression, with the results of their lookups. *)
Fixpoint uses (e : expr) : list (text * option lookup) :=
  match e with
  | EConversion _ e1 target => uses e1 ++ uses_type target
  | EIf _ lhs condition rhs => uses lhs ++ uses condition ++ uses rhs
  | EBinary _ _ lhs rhs => uses lhs ++ uses rhs
  | EPrefix _ _ e1 => uses e1
  | ECall _ name lk _ args => (name, lk) :: flat_map uses args
  | EId _ name lk _ => [(name, lk)]
  | ELiteral _ _ _ => []
  end
with uses_type (t : type_node) : list (text * option lookup) :=
  match t with Type_Node _ _ width _ => match width with Some e => uses e | None => [] end end.

(** A use of a name leads to a visible declaration of this name. *)
Definition bound (G : visible) (u : text * option lookup) : Prop :=
  exists d, snd u = Some d /\ In (fst u, d) G.

(** The same expression, in which all uses are bound. *)
Definition resolved (G : visible) (e e' : expr) : Prop := strip e' = strip e /\ Forall (bound G) (uses e').
Definition resolved_type (G : visible) (t t' : type_node) : Prop :=
  strip_type t' = strip_type t /\ Forall (bound G) (uses_type t').
Definition resolved_opt {A} (R : A -> A -> Prop) (x x' : option A) : Prop :=
  match x, x' with
  | None, None => True
  | Some a, Some a' => R a a'
  | _, _ => False
  end.

(** Statements: a declaration needs a name that is not visible, and is visible from its own type and
    initialiser up to the end of the block.  The last argument are the declarations visible afterwards. *)
Inductive resolved_stmt : visible -> stmt -> stmt -> visible -> Prop :=
| rs_const : forall G cv x n t t' e e', ~ In x (names G) ->
    resolved_opt (resolved_type ((x, LNode DConst n) :: G)) t t' ->
    resolved ((x, LNode DConst n) :: G) e e' ->
    resolved_stmt G (SConst cv x n t e) (SConst cv x n t' e') ((x, LNode DConst n) :: G)
| rs_let : forall G cv x n t t' e e', ~ In x (names G) ->
    resolved_opt (resolved_type ((x, LNode DLet n) :: G)) t t' ->
    resolved_opt (resolved ((x, LNode DLet n) :: G)) e e' ->
    resolved_stmt G (SLet cv x n t e) (SLet cv x n t' e') ((x, LNode DLet n) :: G)
| rs_static_assert : forall G cv e e', resolved G e e' ->
    resolved_stmt G (SStatic_Assert cv e) (SStatic_Assert cv e') G
| rs_if : forall G cv c c' b b' G1, resolved G c c' -> resolved_stmt G b b' G1 ->
    resolved_stmt G (SIf cv c b None) (SIf cv c' b' None) G1
| rs_if_else : forall G cv c c' b b' s s' G1 G2, resolved G c c' -> resolved_stmt G b b' G1 ->
    resolved_stmt G1 s s' G2 -> resolved_stmt G (SIf cv c b (Some s)) (SIf cv c' b' (Some s')) G2
| rs_while : forall G cv c c' b b' G1, resolved G c c' -> resolved_stmt G b b' G1 ->
    resolved_stmt G (SWhile cv c b) (SWhile cv c' b') G1
| rs_control : forall G cv k e e', resolved_opt (resolved G) e e' ->
    resolved_stmt G (SControl cv k e) (SControl cv k e') G
| rs_assign : forall G cv x lk d e e', In (x, d) G -> resolved G e e' ->
    resolved_stmt G (SAssign cv x lk e) (SAssign cv x (Some d) e') G
| rs_block : forall G cv l l', resolved_list G l l' -> resolved_stmt G (SBlock cv l) (SBlock cv l') G
| rs_expr : forall G e e', resolved G e e' -> resolved_stmt G (SExpr e) (SExpr e') G
with resolved_list : visible -> list stmt -> list stmt -> Prop :=
| rl_nil : forall G, resolved_list G [] []
| rl_cons : forall G s s' G1 l l', resolved_stmt G s s' G1 -> resolved_list G1 l l' ->
    resolved_list G (s :: l) (s' :: l').

(** Parameters: a parameter is visible from its own type on.  An unknown name as the width of its type makes
    the function generic, and is visible from then on. *)
Inductive resolved_params : visible -> list parameter -> list parameter -> bool -> visible -> Prop :=
| rp_nil : forall G, resolved_params G [] [] false G
| rp_cons : forall G x n t t' l l' g G', ~ In x (names G) ->
    resolved_type ((x, LParameter n) :: G) t t' ->
    resolved_params ((x, LParameter n) :: G) l l' g G' ->
    resolved_params G (Param x n t :: l) (Param x n t' :: l') g G'
| rp_generic : forall G x n cv k cv' y lk g0 w l l' g G', ~ In x (names G) ->
    ~ In y (names ((x, LParameter n) :: G)) ->
    resolved_params ((y, LNode DWidth n) :: (x, LParameter n) :: G) l l' g G' ->
    resolved_params G (Param x n (Type_Node cv k (Some (EId cv' y lk g0)) w) :: l)
      (Param x n (Type_Node cv k (Some (EId cv' y lk (Some n))) w) :: l') true G'.

Definition resolved_function (G : visible) (f f' : func) : Prop :=
  exists params generic ret req body G1 G2,
    resolved_params G (f_params f) params generic G1
    /\ resolved_type G1 (f_return f) ret
    /\ resolved_opt (resolved G1) (f_requires f) req
    /\ resolved_stmt G1 (f_body f) body G2
    /\ f' = Func (f_name f) (f_self f) (f_cv f) params ret req body (f_generic f || generic)
              (f_address f) (f_level f).

(** Programs: functions and constants are visible everywhere. *)
Definition declares_global (d : declaration) : visible :=
  match d with
  | Decl_Function f => [(f_name f, LNode DFunction (f_self f))]
  | Decl_Statement (SConst _ x n _ _) => [(x, LNode DConst n)]
  | Decl_Statement _ => []
  end.

Inductive resolved_declaration (G : visible) : declaration -> declaration -> Prop :=
| rd_function : forall f f', resolved_function G f f' ->
    resolved_declaration G (Decl_Function f) (Decl_Function f')
| rd_const : forall cv x n t t' e e', resolved_opt (resolved_type G) t t' -> resolved G e e' ->
    resolved_declaration G (Decl_Statement (SConst cv x n t e)) (Decl_Statement (SConst cv x n t' e'))
| rd_static_assert : forall cv e e', resolved G e e' ->
    resolved_declaration G (Decl_Statement (SStatic_Assert cv e)) (Decl_Statement (SStatic_Assert cv e')).

Definition globals (l : list declaration) : visible :=
  flat_map declares_global l ++ [(str "assert", LBuiltin builtin_assert)].

Definition scoped_program (l l' : list declaration) : Prop :=
  NoDup (names (globals l)) /\ Forall2 (resolved_declaration (globals l)) l l'.

(** Children of a [Program] that the parser makes. *)
Definition is_global_declaration (d : declaration) : bool :=
  match d with
  | Decl_Function _ | Decl_Statement (SConst _ _ _ _ _) | Decl_Statement (SStatic_Assert _ _) => true
  | Decl_Statement _ => false
  end.

(** An expression without calls (see also [Programs.call_free]). *)
Fixpoint no_calls (e : expr) : bool :=
  match e with
  | EConversion _ e1 (Type_Node _ _ width _) =>
      no_calls e1 && match width with Some e2 => no_calls e2 | None => true end
  | EIf _ lhs condition rhs => no_calls lhs && no_calls condition && no_calls rhs
  | EBinary _ _ lhs rhs => no_calls lhs && no_calls rhs
  | EPrefix _ _ e1 => no_calls e1
  | ECall _ _ _ _ _ => false
  | EId _ _ _ _ | ELiteral _ _ _ => true
  end.

(** No width of a parameter type contains a call. *)
Definition plain_widths (d : declaration) : bool :=
  match d with
  | Decl_Function f =>
      forallb (fun p => match p_type p with
                        | Type_Node _ _ (Some e) _ => no_calls e
                        | Type_Node _ _ None _ => true
                        end) (f_params f)
  | Decl_Statement _ => true
  end.
