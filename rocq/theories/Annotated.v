(** Trees as analysis leaves them: the recorded types and values fit together.
    This is vocabulary for statements about analysed programs; it does not model code of the repository.
    [values] gives what is recorded for variables, constants and parameters, [table] gives the functions. *)
From Coq Require Import ZArith List Bool.
From Verif Require Import Prelude Types Ops OpsSpec AbsOps AbsOpsSpec Text Tables Literals LinMapSpec Ast SourceSem.
Import ListNotations.
Open Scope Z_scope.

(** A type node that denotes [t]. *)
Definition denotes (n : type_node) (t : ctype) : Prop :=
  type_cv n = Some (AV t None) /\ type_of_node n = ret t /\ wf_type t.

(** What is recorded for an operation: its result, or just the type if it fails. *)
Definition recorded_result (o : outcome eval_error avalue) (t : ctype) (r : avalue) : Prop :=
  o = Ok r \/ ((exists e, o = Err e) /\ r = AV t None).

(** The constants whose value is recorded. *)
Definition constants_of (values : positive -> option avalue) (n : positive) : option cvalue :=
  match values n with
  | Some (AV t (Some z)) => Some (CV t z)
  | _ => None
  end.

Section Noted.

Variable values : positive -> option avalue.
Variable table : positive -> option func.

(** An argument of recorded value [v] for a parameter. *)
Definition argument_fits (cv : option avalue) (p : parameter) : Prop :=
  exists v t, cv = Some v /\ denotes (p_type p) t /\ is_convertible_to (av_type v) t = true.

Fixpoint noted (e : expr) : Prop :=
  match e with
  | EConversion cv e1 target =>
      noted e1 /\
      exists v t r, expr_cv e1 = Some v /\ denotes target t /\ is_convertible_to (av_type v) t = true
        /\ recorded_result (value_evaluate_conversion v t) t r /\ cv = Some r
  | EIf cv lhs condition rhs =>
      noted lhs /\ noted condition /\ noted rhs /\
      exists l c r t v, expr_cv lhs = Some l /\ expr_cv condition = Some c /\ expr_cv rhs = Some r
        /\ check_if_expression (av_type l) (av_type c) (av_type r) = Ok t
        /\ recorded_result (value_evaluate_if_expression l c r) t v /\ cv = Some v
  | EBinary cv op lhs rhs =>
      noted lhs /\ noted rhs /\
      exists l r t v, expr_cv lhs = Some l /\ expr_cv rhs = Some r
        /\ check_binary_operator (av_type l) op (av_type r) = Ok t
        /\ recorded_result (value_evaluate_binary_operator l op r) t v /\ cv = Some v
  | EPrefix cv op e1 =>
      noted e1 /\
      exists x t v, expr_cv e1 = Some x /\ check_unary_operator op (av_type x) = Ok t
        /\ recorded_result (value_evaluate_unary_operator op x) t v /\ cv = Some v
  | ECall cv _ lk _ args =>
      (fix all (l : list expr) : Prop := match l with [] => True | a :: l' => noted a /\ all l' end) args /\
      match lk with
      | Some (LBuiltin builtin_assert) =>
          exists a v r, args = [a] /\ expr_cv a = Some v
            /\ value_evaluate_builtin_function builtin_assert [v] = Ok r /\ cv = Some r
      | Some (LNode DFunction n) =>
          exists f t, table n = Some f /\ Forall2 argument_fits (map expr_cv args) (f_params f)
            /\ denotes (f_return f) t /\ cv = Some (AV t None)
      | _ => False
      end
  | EId cv _ lk _ =>
      match lk with
      | Some (LParameter n) | Some (LNode DLet n) =>
          exists t, wf_type t /\ values n = Some (AV t None) /\ cv = Some (AV t None)
      | Some (LNode DConst n) => exists v, wf_avalue v /\ values n = Some v /\ cv = Some v
      | _ => False
      end
  | ELiteral cv lit type => exists v, literal_value lit type = ret v /\ wf_value v /\ cv = Some (known v)
  end.

Definition all_noted : list expr -> Prop :=
  fix all (l : list expr) : Prop := match l with [] => True | a :: l' => noted a /\ all l' end.

(** Statements of a function that returns a [return_type]. Constants and static assertions have no meaning
    at run time. *)
Fixpoint noted_stmt (return_type : ctype) (s : stmt) : Prop :=
  match s with
  | SConst cv _ _ _ _ | SStatic_Assert cv _ => exists v, cv = Some v
  | SLet cv _ self type init =>
      exists t, wf_type t /\ values self = Some (AV t None) /\ cv = Some (AV t None)
      /\ match type with
         | Some n => denotes n t
         | None => exists e v, init = Some e /\ expr_cv e = Some v /\ av_type v = t
         end
      /\ match init with
         | None => True
         | Some e => noted e /\ exists v, expr_cv e = Some v /\ is_convertible_to (av_type v) t = true
         end
  | SIf _ condition if_block else_node =>
      noted condition /\ (exists c, expr_cv condition = Some c /\ av_type c = TBool)
      /\ noted_stmt return_type if_block
      /\ match else_node with Some s1 => noted_stmt return_type s1 | None => True end
  | SWhile _ condition block =>
      noted condition /\ (exists c, expr_cv condition = Some c /\ av_type c = TBool)
      /\ noted_stmt return_type block
  | SControl cv ctl_return e =>
      match e with
      | None => return_type = TVoid /\ cv = Some av_Void
      | Some e1 =>
          noted e1 /\
          exists v r, expr_cv e1 = Some v /\ is_convertible_to (av_type v) return_type = true
            /\ recorded_result (value_evaluate_conversion v return_type) return_type r /\ cv = Some r
      end
  | SControl _ _ _ => True
  | SAssign cv _ lk e =>
      noted e /\
      exists n t v r, lk = Some (LNode DLet n) /\ wf_type t /\ values n = Some (AV t None)
        /\ expr_cv e = Some v /\ is_convertible_to (av_type v) t = true
        /\ recorded_result (value_evaluate_conversion v t) t r /\ cv = Some r
  | SBlock _ children =>
      (fix all (l : list stmt) : Prop :=
         match l with [] => True | s1 :: l' => noted_stmt return_type s1 /\ all l' end) children
  | SExpr e => noted e
  end.

Definition all_noted_stmt (return_type : ctype) : list stmt -> Prop :=
  fix all (l : list stmt) : Prop :=
    match l with [] => True | s1 :: l' => noted_stmt return_type s1 /\ all l' end.

(** A function with all that is reachable from its body. *)
Definition noted_function (f : func) : Prop :=
  (exists t, denotes (f_return f) t /\ noted_stmt t (f_body f))
  /\ forall p, In p (f_params f) -> exists t, denotes (p_type p) t /\ values (p_self p) = Some (AV t None).

(** The values of the variables are of the recorded types. *)
Definition typed_vars (vars : env) : Prop :=
  forall p v, vars p = Some v -> exists t, values p = Some (AV t None) /\ wf_value v /\ cv_type v = t.

(** The arguments are of the types of the parameters. *)
Definition typed_args (f : func) (args : list cvalue) : Prop :=
  Forall2 (fun p v => exists t, denotes (p_type p) t /\ wf_value v /\ cv_type v = t) (f_params f) args.

End Noted.

(** Errors that can occur when a well-typed program is run. *)
Definition run_error (e : src_error) : Prop :=
  e <> s_stuck /\ e <> s_not_bool /\ e <> s_eval type_error.

(** A result of type [t], or a run-time error. *)
Definition typed_result (t : ctype) (r : res cvalue) : Prop :=
  match r with
  | Some (Ok v) => wf_value v /\ cv_type v = t
  | Some (Err e) => run_error e
  | _ => True
  end.

(** A result that is as recorded: of the recorded type, and the recorded value if there is one. *)
Definition as_recorded (a : avalue) (r : res cvalue) : Prop :=
  typed_result (av_type a) r
  /\ forall z, av_val a = Some z -> r = ret (CV (av_type a) z).

(** No value changes its type where generated code does not convert: in the branches of an if-expression, and
    by [let] and assignment. Uses of constants have a recorded value. *)
Fixpoint direct (e : expr) : Prop :=
  match e with
  | EConversion _ e1 _ => direct e1
  | EIf cv lhs condition rhs =>
      direct lhs /\ direct condition /\ direct rhs
      /\ option_map av_type (expr_cv lhs) = option_map av_type cv
      /\ option_map av_type (expr_cv rhs) = option_map av_type cv
  | EBinary _ _ lhs rhs => direct lhs /\ direct rhs
  | EPrefix _ _ e1 => direct e1
  | ECall _ _ _ _ args =>
      (fix all (l : list expr) : Prop := match l with [] => True | a :: l' => direct a /\ all l' end) args
  | EId cv _ lk _ =>
      match lk with
      | Some (LNode DConst _) => exists v, cv = Some (known v)
      | _ => True
      end
  | ELiteral _ _ _ => True
  end.

Definition all_direct : list expr -> Prop :=
  fix all (l : list expr) : Prop := match l with [] => True | a :: l' => direct a /\ all l' end.

Fixpoint direct_stmt (s : stmt) : Prop :=
  match s with
  | SConst _ _ _ _ _ | SStatic_Assert _ _ => True
  | SLet cv _ _ _ init =>
      match init with
      | Some e => direct e /\ option_map av_type (expr_cv e) = option_map av_type cv
      | None => True
      end
  | SIf _ c b e =>
      direct c /\ direct_stmt b /\ match e with Some s1 => direct_stmt s1 | None => True end
  | SWhile _ c b => direct c /\ direct_stmt b
  | SControl _ _ e => match e with Some e1 => direct e1 | None => True end
  | SAssign cv _ _ e => direct e /\ option_map av_type (expr_cv e) = option_map av_type cv
  | SBlock _ l =>
      (fix all (l : list stmt) : Prop := match l with [] => True | s1 :: l' => direct_stmt s1 /\ all l' end) l
  | SExpr e => direct e
  end.

Definition all_direct_stmt : list stmt -> Prop :=
  fix all (l : list stmt) : Prop := match l with [] => True | s1 :: l' => direct_stmt s1 /\ all l' end.
