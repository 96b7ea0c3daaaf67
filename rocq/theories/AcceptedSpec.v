(** Vocabulary for statements about accepted programs: the expressions and statements that are run, and
    machines that are about to call a function.  This does not model code of the repository. *)
From Coq Require Import ZArith List Bool.
From Verif Require Import Prelude Types Ops OpsSpec AbsOps Text Tables LinMap VM Ast SourceSem Annotated Analyze Programs.
Import ListNotations.
Open Scope Z_scope.

(** An expression and the expressions in it that are evaluated with it; not the widths of types. *)
Fixpoint parts (e : expr) : list expr :=
  e :: match e with
       | EConversion _ e1 _ => parts e1
       | EIf _ lhs condition rhs => parts lhs ++ parts condition ++ parts rhs
       | EBinary _ _ lhs rhs => parts lhs ++ parts rhs
       | EPrefix _ _ e1 => parts e1
       | ECall _ _ _ _ args => flat_map parts args
       | EId _ _ _ _ | ELiteral _ _ _ => []
       end.

(** A statement and the statements in it. *)
Fixpoint stmts_in (s : stmt) : list stmt :=
  s :: match s with
       | SIf _ _ b e => stmts_in b ++ match e with Some s1 => stmts_in s1 | None => [] end
       | SWhile _ _ b => stmts_in b
       | SBlock _ l => flat_map stmts_in l
       | _ => []
       end.

(** The expression a statement evaluates at run time. *)
Definition own_expr (s : stmt) : list expr :=
  match s with
  | SConst _ _ _ _ _ | SStatic_Assert _ _ | SBlock _ _ => []
  | SLet _ _ _ _ init => match init with Some e => [e] | None => [] end
  | SIf _ c _ _ | SWhile _ c _ => [c]
  | SControl _ ctl_return (Some e) => [e]
  | SControl _ _ _ => []
  | SAssign _ _ _ e => [e]
  | SExpr e => [e]
  end.
Definition run_exprs (s : stmt) : list expr := flat_map (fun s1 => flat_map parts (own_expr s1)) (stmts_in s).

(** The analysis accepts a program and leaves the state [st]. *)
Definition passes (consts : positive -> bool) (table : positive -> option func) (items : list item) (st : state)
  : Prop :=
  program_ready consts table items
  /\ exists rf fuel items', analyze_program rf fuel table items = Some (Ok (items', st)).

(** A function that has been analysed, with the concrete type it returns. *)
Definition analysed_function (st : state) (n : positive) (f : func) (t : ctype) : Prop :=
  st_functions st n = Some f /\ denotes (f_return f) t.

(** The virtual machine with the program [st] and about to run function [f] with the given arguments. *)
Definition about_to_run (st : state) (f : func) (args : list cvalue) (m : vm) : Prop :=
  instruction_count (vm_instructions (st_vm st)) < 2 ^ 62
  /\ vm_instructions m = vm_instructions (st_vm st)
  /\ f_address f = Some (vm_counter m)
  /\ vm_stack m = rev args /\ vm_frames m = lm_clear
  /\ typed_args f args.

(** The meaning of a call: with conversions for [let], assignment and branches, and without use of recorded
    values of expressions. *)
Definition meaning (st : state) (fuel : nat) (n : positive) (args : list cvalue) : res cvalue :=
  call true (st_functions st) (constants_of (st_values st)) fuel n args.

(** No function converts a value where generated code does not, or uses a constant without value. *)
Definition direct_program (st : state) : Prop :=
  forall n f, st_functions st n = Some f -> direct_stmt (f_body f).

(** Errors that cannot be excluded: of an operation, but not that the types are wrong for it; and the use of
    a variable or constant without value. *)
Definition excusable (e : src_error) : Prop :=
  e = s_uninitialized \/ exists x, e = s_eval x /\ x <> type_error.
