(** Programs as they are before name lookup and analysis: vocabulary for statements about both.  It does not
    model code of the repository. *)
From Coq Require Import ZArith List Bool.
From Verif Require Import Prelude Types Ops Text Tables AbsOps VM Ast Codegen SourceSem CodegenSpec Analyze Programs
  NameLookup NameLookupSpec.
Import ListNotations.

(** A statement without results of lookups. *)
Fixpoint strip_stmt (s : stmt) : stmt :=
  match s with
  | SConst cv x n t e => SConst cv x n (option_map strip_type t) (strip e)
  | SLet cv x n t e => SLet cv x n (option_map strip_type t) (option_map strip e)
  | SStatic_Assert cv e => SStatic_Assert cv (strip e)
  | SIf cv c b e => SIf cv (strip c) (strip_stmt b) (match e with Some s1 => Some (strip_stmt s1) | None => None end)
  | SWhile cv c b => SWhile cv (strip c) (strip_stmt b)
  | SControl cv k e => SControl cv k (option_map strip e)
  | SAssign cv x _ e => SAssign cv x None (strip e)
  | SBlock cv l => SBlock cv (map strip_stmt l)
  | SExpr e => SExpr (strip e)
  end.

(** A function as the parser leaves it: nothing is recorded; without [requires] clause, and with parameter and
    return types whose widths need no calls.  [consts] are the identities of constants. *)
Definition source_function (consts : positive -> bool) (f : func) : Prop :=
  f_cv f = None /\ f_requires f = None /\ f_generic f = false /\ f_address f = None /\ f_level f = unanalyzed
  /\ (forall p, In p (f_params f) ->
        fresh_type consts (strip_type (p_type p)) = true /\ call_free_type (p_type p) = true
        /\ consts (p_self p) = false)
  /\ fresh_type consts (strip_type (f_return f)) = true /\ call_free_type (f_return f) = true
  /\ fresh_stmt consts (strip_stmt (f_body f)) = true /\ shaped (f_body f) = true /\ ends_with_return f
  /\ NoDup (declared_in f).

Definition functions_of (l : list declaration) : list func :=
  flat_map (fun d => match d with Decl_Function f => [f] | Decl_Statement _ => [] end) l.
Definition statements_of (l : list declaration) : list stmt :=
  flat_map (fun d => match d with Decl_Function _ => [] | Decl_Statement s => [s] end) l.

(** A program as the parser leaves it: all declarations have identities of their own. *)
Definition source_program (consts : positive -> bool) (l : list declaration) : Prop :=
  (forall f, In f (functions_of l) -> source_function consts f)
  /\ NoDup (map f_self (functions_of l))
  /\ NoDup (flat_map declared_in (functions_of l) ++ flat_map declares (statements_of l))
  /\ (forall s, In s (statements_of l) -> fresh_stmt consts (strip_stmt s) = true).

(** The functions by their identities, and the list of children, as analysis takes them. *)
Definition table_of (l : list declaration) (n : positive) : option func :=
  find (fun f => Pos.eqb n (f_self f)) (functions_of l).
Definition items_of (l : list declaration) : list item :=
  map (fun d => match d with Decl_Function f => Item_Function (f_self f) | Decl_Statement s => Item_Statement s end) l.
