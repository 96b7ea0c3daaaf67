(** Programs as name lookup leaves them, before analysis: vocabulary for statements about accepted programs.
    It does not model code of the repository.  [consts n] says that [n] is the identity of a constant. *)
From Coq Require Import ZArith List Bool.
From Verif Require Import Prelude Types Ops Text Tables AbsOps VM Ast Codegen SourceSem CodegenSpec Analyze.
Import ListNotations.
Open Scope Z_scope.

Definition absent {A} (x : option A) : bool := match x with None => true | Some _ => false end.

Section Fresh.
Variable consts : positive -> bool.

(** Nothing is recorded yet, and names lead to declarations of the kind the lookup says. *)
Fixpoint fresh (e : expr) : bool :=
  match e with
  | EConversion cv e1 target => absent cv && fresh e1 && fresh_type target
  | EIf cv lhs condition rhs => absent cv && fresh lhs && fresh condition && fresh rhs
  | EBinary cv _ lhs rhs => absent cv && fresh lhs && fresh rhs
  | EPrefix cv _ e1 => absent cv && fresh e1
  | ECall cv _ _ _ args => absent cv && forallb fresh args
  | EId cv _ lk _ =>
      absent cv && match lk with
                   | Some (LParameter n) | Some (LNode DLet n) => negb (consts n)
                   | Some (LNode DConst n) => consts n
                   | _ => true
                   end
  | ELiteral cv _ _ => absent cv
  end
with fresh_type (t : type_node) : bool :=
  match t with
  | Type_Node cv _ width concrete_width =>
      absent cv && absent concrete_width && match width with Some e => fresh e | None => true end
  end.

Fixpoint fresh_stmt (s : stmt) : bool :=
  match s with
  | SConst cv _ self type init =>
      absent cv && consts self && fresh init && match type with Some t => fresh_type t | None => true end
  | SLet cv _ self type init =>
      absent cv && negb (consts self) && match type with Some t => fresh_type t | None => true end
      && match init with Some e => fresh e | None => true end
  | SStatic_Assert cv e => absent cv && fresh e
  | SIf cv c b e => absent cv && fresh c && fresh_stmt b && match e with Some s1 => fresh_stmt s1 | None => true end
  | SWhile cv c b => absent cv && fresh c && fresh_stmt b
  | SControl cv _ e => absent cv && match e with Some e1 => fresh e1 | None => true end
  | SAssign cv _ lk e =>
      absent cv && fresh e && match lk with Some (LNode DLet n) => negb (consts n) | _ => true end
  | SBlock cv l => absent cv && forallb fresh_stmt l
  | SExpr e => fresh e
  end.

(** An expression without calls. *)
Fixpoint call_free (e : expr) : bool :=
  match e with
  | EConversion _ e1 target => call_free e1 && call_free_type target
  | EIf _ lhs condition rhs => call_free lhs && call_free condition && call_free rhs
  | EBinary _ _ lhs rhs => call_free lhs && call_free rhs
  | EPrefix _ _ e1 => call_free e1
  | ECall _ _ _ _ _ => false
  | EId _ _ _ _ | ELiteral _ _ _ => true
  end
with call_free_type (t : type_node) : bool :=
  match t with Type_Node _ _ width _ => match width with Some e => call_free e | None => true end end.

(** The variables and constants that a statement declares. *)
Fixpoint declares (s : stmt) : list positive :=
  match s with
  | SConst _ _ self _ _ | SLet _ _ self _ _ => [self]
  | SIf _ _ b e => declares b ++ match e with Some s1 => declares s1 | None => [] end
  | SWhile _ _ b => declares b
  | SBlock _ l => flat_map declares l
  | _ => []
  end.

Definition declared_in (f : func) : list positive := map p_self (f_params f) ++ declares (f_body f).

(** A function before analysis; without bit-generic parameters, without [requires] clause, and with
    parameter and return types whose widths need no calls. *)
Definition function_ready (f : func) : Prop :=
  f_cv f = None /\ f_requires f = None /\ f_generic f = false /\ f_address f = None /\ f_level f = unanalyzed
  /\ (forall p, In p (f_params f) ->
        fresh_type (p_type p) = true /\ call_free_type (p_type p) = true /\ consts (p_self p) = false)
  /\ fresh_type (f_return f) = true /\ call_free_type (f_return f) = true
  /\ fresh_stmt (f_body f) = true /\ shaped (f_body f) = true /\ ends_with_return f
  /\ NoDup (declared_in f).

(** The statements outside of functions. *)
Definition is_global (s : stmt) : bool :=
  match s with SConst _ _ _ _ _ | SStatic_Assert _ _ => true | _ => false end.

Definition global_declared (items : list item) : list positive :=
  flat_map (fun i => match i with Item_Statement s => declares s | Item_Function _ => [] end) items.

(** A program: its functions are listed, and every declaration has its own identity. *)
Definition program_ready (table : positive -> option func) (items : list item) : Prop :=
  (forall n f, table n = Some f -> function_ready f /\ In (Item_Function n) items)
  /\ (forall n n' f f' p, table n = Some f -> table n' = Some f' ->
        In p (declared_in f) -> In p (declared_in f') -> n = n')
  /\ (forall s, In (Item_Statement s) items -> is_global s = true /\ fresh_stmt s = true)
  /\ NoDup (global_declared items)
  /\ (forall n f p, table n = Some f -> In p (declared_in f) -> ~ In p (global_declared items)).
End Fresh.
