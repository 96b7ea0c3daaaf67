(** Meaning of resolved BMS programs, as an evaluator over syntax trees.  This is the specification the
    generated code is measured against; it does not model code of the repository.

    Names have been resolved, and types are the concrete types recorded in the tree; the evaluator does not
    use recorded constant values when [faithful] is [true].  With [faithful = false] the evaluator
    describes a second, weaker meaning: recorded constant values are used as they are, and a value is
    converted only where the recorded types of an argument or a returned expression differ from those of
    the parameter or function (no conversion takes place for [let], assignments and the branches of an
    if-expression).

    Variables belong to one call of a function. Declaring a variable without initialiser does nothing;
    reading a variable or constant that was never given a value is an error. *)
From Coq Require Import ZArith List Bool.
From Verif Require Import Prelude Types Ops AbsOps Text Tables Literals LinMapSpec Ast.
Import ListNotations.
Open Scope Z_scope.

(** Ways in which a run can go wrong. [s_no_value]: the end of a function that has to return a value was
    reached. [s_stuck]: the tree is malformed. *)
Inductive src_error : Type :=
| s_eval (e : eval_error)
| s_uninitialized
| s_not_bool
| s_break_outside_loop
| s_no_value
| s_stuck.

(** [None]: the fuel did not suffice. *)
Definition res (A : Type) : Type := option (outcome src_error A).

Definition ret {A} (a : A) : res A := Some (Ok a).
Definition throw {A} (e : src_error) : res A := Some (Err e).
Definition rbind {A B} (x : res A) (f : A -> res B) : res B :=
  match x with
  | None => None
  | Some (Ok a) => f a
  | Some (Err e) => Some (Err e)
  | Some Abort => Some Abort
  | Some UB => Some UB
  end.
Notation "'do' x '<-' m ';' k" := (rbind m (fun x => k))
  (at level 200, x pattern, m at level 100, k at level 200, right associativity).

(** An operation on values. *)
Definition operate (r : outcome eval_error cvalue) : res cvalue :=
  match r with
  | Ok v => ret v
  | Err e => throw (s_eval e)
  | Abort => Some Abort
  | UB => Some UB
  end.

(** The truth value of a condition. *)
Definition truth (v : cvalue) : res bool :=
  if ctype_eqb (cv_type v) TBool then
    if cv_int v =? 0 then ret false
    else if cv_int v =? 1 then ret true
    else throw s_stuck
  else throw s_not_bool.

(** How a statement ends. *)
Inductive ctl : Type := Normal | Breaks | Continues | Returns (v : cvalue).

(** The type recorded in a node of the tree. *)
Definition recorded_type (cv : option avalue) : res ctype :=
  match cv with Some a => ret (av_type a) | None => throw s_stuck end.

(** The meaning of a type node. *)
Definition type_of_node (t : type_node) : res ctype :=
  match @concrete_type_value unit t with Ok c => ret c | _ => throw s_stuck end.

(** The value of a literal. *)
Definition literal_value (lit : text) (type : token_type) : res cvalue :=
  match type with
  | tk_keyword_true => ret cv_True
  | tk_keyword_false => ret cv_False
  | tk_binary_literal | tk_octal_literal | tk_decimal_literal | tk_hexadecimal_literal =>
      match parse_integer_literal lit with
      | Some z => ret (CV TInt z)
      | None => throw s_stuck
      end
  | _ => throw s_stuck
  end.

Section Meaning.

Variable faithful : bool.
(** The functions and constants of the program. *)
Variable functions_of : positive -> option func.
Variable constants : positive -> option cvalue.

(** Use of a recorded constant value. *)
Definition recorded (cv : option avalue) (k : res cvalue) : res cvalue :=
  if faithful then k
  else match cv with
       | Some (AV t (Some z)) => ret (CV t z)
       | _ => k
       end.

(** [let], assignment, branch of an if-expression. *)
Definition adapt (v : cvalue) (to : res ctype) : res cvalue :=
  if faithful then do t <- to; operate (convert_to v t lossless_numeric) else ret v.

(** Argument or returned value. *)
Definition pass (v : cvalue) (from to : res ctype) : res cvalue :=
  do t <- to;
  if faithful then operate (convert_to v t lossless_numeric)
  else
    do f <- from;
    if ctype_eqb f t then ret v else operate (convert_to v t lossless_numeric).

(** The types of the parameters of a function. *)
Definition parameter_type (l : lookup) (i : nat) : res ctype :=
  match l with
  | LNode DFunction n =>
      match functions_of n with
      | Some f =>
          match nth_error (f_params f) i with
          | Some p => recorded_type (type_cv (p_type p))
          | None => throw s_stuck
          end
      | None => throw s_stuck
      end
  | LBuiltin builtin_assert => match i with O => ret TBool | _ => throw s_stuck end
  | _ => throw s_stuck
  end.

Section Expressions.

(** [call n args]: the value a function returns. *)
Variable call : positive -> list cvalue -> res cvalue.

Definition invoke (l : lookup) (args : list cvalue) : res cvalue :=
  match l with
  | LNode DFunction n => call n args
  | LBuiltin builtin_assert =>
      match args with
      | [v] => operate (evaluate_builtin_function builtin_assert [v])
      | _ => throw s_stuck
      end
  | _ => throw s_stuck
  end.

Fixpoint eval (vars : env) (e : expr) : res cvalue :=
  match e with
  | EConversion cv e1 target =>
      recorded cv
        (do v <- eval vars e1;
         do t <- type_of_node target;
         operate (convert_to v t lossless_numeric))
  | EIf cv lhs condition rhs =>
      recorded cv
        (do c <- eval vars condition;
         do b <- truth c;
         do v <- (if (b : bool) then eval vars lhs else eval vars rhs);
         adapt v (recorded_type cv))
  | EBinary cv op lhs rhs =>
      recorded cv
        (do l <- eval vars lhs;
         match op with
         | logical_and =>
             do b <- truth l;
             if (b : bool) then eval vars rhs else ret cv_False
         | logical_or =>
             do b <- truth l;
             if (b : bool) then ret cv_True else eval vars rhs
         | _ =>
             do r <- eval vars rhs;
             operate (evaluate_binary_operator l op r)
         end)
  | EPrefix cv op e1 =>
      recorded cv
        (do v <- eval vars e1;
         operate (evaluate_unary_operator op v))
  | ECall cv _ lk _ args =>
      recorded cv
        (do values <-
           (fix eval_args (i : nat) (l : list expr) : res (list cvalue) :=
              match l with
              | [] => ret []
              | a :: rest =>
                  do v <- eval vars a;
                  do w <- pass v (recorded_type (expr_cv a))
                            (match lk with Some f => parameter_type f i | None => throw s_stuck end);
                  do ws <- eval_args (S i) rest;
                  ret (w :: ws)
              end) O args;
         match lk with Some f => invoke f values | None => throw s_stuck end)
  | EId cv _ lk _ =>
      recorded cv
        (match lk with
         | Some (LNode DConst n) =>
             if faithful then
               match constants n with Some v => ret v | None => throw s_uninitialized end
             else match vars n with Some v => ret v | None => throw s_uninitialized end
         | Some (LNode DLet n) | Some (LParameter n) =>
             match vars n with Some v => ret v | None => throw s_uninitialized end
         | _ => throw s_stuck
         end)
  | ELiteral cv lit type => recorded cv (literal_value lit type)
  end.

(** Evaluating the arguments of a call, as above. *)
Definition eval_args (vars : env) (lk : option lookup) :=
  fix eval_args (i : nat) (l : list expr) : res (list cvalue) :=
    match l with
    | [] => ret []
    | a :: rest =>
        do v <- eval vars a;
        do w <- pass v (recorded_type (expr_cv a))
                  (match lk with Some f => parameter_type f i | None => throw s_stuck end);
        do ws <- eval_args (S i) rest;
        ret (w :: ws)
    end.

(** A loop: [condition], then [body], at most [fuel] times. *)
Fixpoint loop (condition : env -> res bool) (body : env -> res (ctl * env)) (fuel : nat) (vars : env)
  : res (ctl * env) :=
  match fuel with
  | O => None
  | S n =>
      do b <- condition vars;
      if (b : bool) then
        do r <- body vars;
        match r with
        | (Normal, vars') | (Continues, vars') => loop condition body n vars'
        | (Breaks, vars') => ret (Normal, vars')
        | (Returns v, vars') => ret (Returns v, vars')
        end
      else ret (Normal, vars)
  end.

(** Statements of a function that returns a [return_type]; loops iterate at most [fuel] times. *)
Fixpoint exec (return_type : ctype) (fuel : nat) (vars : env) (s : stmt) : res (ctl * env) :=
  match s with
  | SConst _ _ _ _ _ | SStatic_Assert _ _ => ret (Normal, vars)
  | SLet cv _ self _ init =>
      match init with
      | None => ret (Normal, vars)
      | Some e =>
          do v <- eval vars e;
          do w <- adapt v (recorded_type cv);
          ret (Normal, update vars self w)
      end
  | SIf _ condition if_block else_node =>
      do c <- eval vars condition;
      do b <- truth c;
      if (b : bool) then exec return_type fuel vars if_block
      else match else_node with
           | None => ret (Normal, vars)
           | Some s1 => exec return_type fuel vars s1
           end
  | SWhile _ condition block =>
      loop (fun vars => do c <- eval vars condition; truth c)
        (fun vars => exec return_type fuel vars block) fuel vars
  | SControl _ ctl_break _ => ret (Breaks, vars)
  | SControl _ ctl_continue _ => ret (Continues, vars)
  | SControl cv ctl_return e =>
      do v <-
        (recorded cv
           (match e with
            | None => ret cv_Void
            | Some e1 =>
                do v <- eval vars e1;
                pass v (recorded_type (expr_cv e1)) (ret return_type)
            end));
      ret (Returns v, vars)
  | SAssign cv _ lk e =>
      do v <- eval vars e;
      do w <- adapt v (recorded_type cv);
      match lk with
      | Some (LNode DLet n) => ret (Normal, update vars n w)
      | _ => throw s_stuck
      end
  | SBlock _ children =>
      (fix exec_children (l : list stmt) (vars : env) : res (ctl * env) :=
         match l with
         | [] => ret (Normal, vars)
         | s1 :: rest =>
             do r <- exec return_type fuel vars s1;
             match r with
             | (Normal, vars') => exec_children rest vars'
             | stopped => ret stopped
             end
         end) children vars
  | SExpr e =>
      do _ <- eval vars e;
      ret (Normal, vars)
  end.

(** The statements of a block, as above. *)
Definition exec_children (return_type : ctype) (fuel : nat) :=
  fix exec_children (l : list stmt) (vars : env) : res (ctl * env) :=
    match l with
    | [] => ret (Normal, vars)
    | s1 :: rest =>
        do r <- exec return_type fuel vars s1;
        match r with
        | (Normal, vars') => exec_children rest vars'
        | stopped => ret stopped
        end
    end.

End Expressions.

(** The variables at the start of a call. *)
Fixpoint bind_parameters (params : list parameter) (args : list cvalue) : option env :=
  match params, args with
  | [], [] => Some empty_env
  | p :: params', a :: args' =>
      match bind_parameters params' args' with
      | Some vars => Some (update vars (p_self p) a)
      | None => None
      end
  | _, _ => None
  end.

(** Calling a function: [fuel] bounds the depth of calls and the iterations of every loop. *)
Fixpoint call (fuel : nat) (n : positive) (args : list cvalue) : res cvalue :=
  match fuel with
  | O => None
  | S fuel' =>
      match functions_of n with
      | None => throw s_stuck
      | Some f =>
          match bind_parameters (f_params f) args with
          | None => throw s_stuck
          | Some vars =>
              do return_type <- type_of_node (f_return f);
              do r <- exec (call fuel') return_type fuel' vars (f_body f);
              match r with
              | (Returns v, _) => ret v
              | (Normal, _) =>
                  match node_type (f_return f) with
                  | tt_Void => ret cv_Void
                  | _ => throw s_no_value
                  end
              | (Breaks, _) | (Continues, _) => throw s_break_outside_loop
              end
          end
      end
  end.

End Meaning.
