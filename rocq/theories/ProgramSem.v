(** Meaning of BMS programs whose names have been resolved, but which have not been analysed: no recorded
    type, value or width is used.  Types of expressions, widths of types and values of constants are computed
    from the source program.  This is a specification; it does not model code of the repository. *)
From Coq Require Import ZArith List Bool.
From Verif Require Import Prelude Types Ops AbsOps Text Tables Literals LinMapSpec Ast SourceSem AcceptedSpec Analyze.
Import ListNotations.
Open Scope Z_scope.

(** What a variable, constant or parameter was declared as. *)
Inductive declaration : Type :=
| Decl_Const (type : option type_node) (init : expr)
| Decl_Let (type : option type_node) (init : option expr)
| Decl_Parameter (type : type_node).

Definition declared_here (s : stmt) : list (positive * declaration) :=
  match s with
  | SConst _ _ self type init => [(self, Decl_Const type init)]
  | SLet _ _ self type init => [(self, Decl_Let type init)]
  | _ => []
  end.

(** All declarations of a program. *)
Definition item_declarations (table : positive -> option func) (i : item) : list (positive * declaration) :=
  match i with
  | Item_Statement s => flat_map declared_here (stmts_in s)
  | Item_Function n =>
      match table n with
      | Some f =>
          map (fun p => (p_self p, Decl_Parameter (p_type p))) (f_params f)
          ++ flat_map declared_here (stmts_in (f_body f))
      | None => []
      end
  end.

Definition declaration_of (table : positive -> option func) (items : list item) (p : positive)
  : option declaration :=
  option_map snd (find (fun d => Pos.eqb p (fst d)) (flat_map (item_declarations table) items)).

(** The type that two operands have in common. *)
Definition common (a b : ctype) : res ctype :=
  match a, b with
  | TVoid, TVoid => ret TVoid
  | TBool, TBool => ret TBool
  | TInt, TInt => ret TInt
  | TInt, TUint w | TUint w, TInt => ret (TUint w)
  | TUint w, TUint w' => if w =? w' then ret (TUint w) else throw s_stuck
  | _, _ => throw s_stuck
  end.

(** Operators whose result is a truth value. *)
Definition yields_bool (op : expr_kind) : bool :=
  match op with
  | logical_and | logical_or
  | equals | not_equals | less_than | greater_than | less_or_equal | greater_or_equal => true
  | _ => false
  end.

(** What is known before a program runs: calls in constant expressions, the values of constants, the types
    of declared names and of functions. *)
Record statics : Type := Statics {
  static_call : positive -> list cvalue -> res cvalue;
  static_value : positive -> res cvalue;
  static_type : positive -> res ctype;
  static_signature : positive -> res (list ctype * ctype)
}.

Definition convert (v : cvalue) (t : ctype) : res cvalue := operate (convert_to v t lossless_numeric).

Section Static.

Variable K : statics.

(** The types of the parameters of what is called, and the call. *)
Definition parameter_types (lk : option lookup) : res (list ctype) :=
  match lk with
  | Some (LNode DFunction n) => do s <- static_signature K n; ret (fst s)
  | Some (LBuiltin builtin_assert) => ret [TBool]
  | _ => throw s_stuck
  end.
Definition invoked (call : positive -> list cvalue -> res cvalue) (lk : option lookup) (args : list cvalue)
  : res cvalue :=
  match lk with
  | Some (LNode DFunction n) => call n args
  | Some (LBuiltin builtin_assert) => operate (evaluate_builtin_function builtin_assert args)
  | _ => throw s_stuck
  end.

(** The value of an expression, its type, and the type a type node stands for. *)
Fixpoint ev (call : positive -> list cvalue -> res cvalue) (vars : env) (e : expr) {struct e} : res cvalue :=
  match e with
  | EConversion _ e1 target =>
      do v <- ev call vars e1;
      do t <- type_meant target;
      convert v t
  | EIf _ lhs condition rhs =>
      do c <- ev call vars condition;
      do b <- truth c;
      do v <- (if (b : bool) then ev call vars lhs else ev call vars rhs);
      do l <- type_of lhs;
      do r <- type_of rhs;
      do t <- common l r;
      convert v t
  | EBinary _ op lhs rhs =>
      do l <- ev call vars lhs;
      match op with
      | logical_and =>
          do b <- truth l;
          if (b : bool) then ev call vars rhs else ret cv_False
      | logical_or =>
          do b <- truth l;
          if (b : bool) then ret cv_True else ev call vars rhs
      | _ =>
          do r <- ev call vars rhs;
          operate (evaluate_binary_operator l op r)
      end
  | EPrefix _ op e1 =>
      do v <- ev call vars e1;
      operate (evaluate_unary_operator op v)
  | ECall _ _ lk _ args =>
      do types <- parameter_types lk;
      do values <-
        (fix ev_args (types : list ctype) (l : list expr) {struct l} : res (list cvalue) :=
           match l, types with
           | [], [] => ret []
           | a :: rest, t :: types' =>
               do v <- ev call vars a;
               do w <- convert v t;
               do ws <- ev_args types' rest;
               ret (w :: ws)
           | _, _ => throw s_stuck
           end) types args;
      invoked call lk values
  | EId _ _ (Some (LNode DConst n)) _ => static_value K n
  | EId _ _ (Some (LNode DLet n)) _ | EId _ _ (Some (LParameter n)) _ =>
      match vars n with Some v => ret v | None => throw s_uninitialized end
  | EId _ _ _ _ => throw s_stuck
  | ELiteral _ lit type => literal_value lit type
  end
with type_of (e : expr) {struct e} : res ctype :=
  match e with
  | EConversion _ _ target => type_meant target
  | EIf _ lhs _ rhs =>
      do l <- type_of lhs;
      do r <- type_of rhs;
      common l r
  | EBinary _ op lhs rhs =>
      do l <- type_of lhs;
      do r <- type_of rhs;
      do t <- common l r;
      ret (if yields_bool op then TBool else t)
  | EPrefix _ _ e1 => type_of e1
  | ECall _ _ (Some (LNode DFunction n)) _ _ => do s <- static_signature K n; ret (snd s)
  | ECall _ _ (Some (LBuiltin builtin_assert)) _ _ => ret TVoid
  | EId _ _ (Some (LNode DConst n)) _ | EId _ _ (Some (LNode DLet n)) _ | EId _ _ (Some (LParameter n)) _ =>
      static_type K n
  | ELiteral _ _ tk_keyword_true | ELiteral _ _ tk_keyword_false => ret TBool
  | ELiteral _ _ tk_binary_literal | ELiteral _ _ tk_octal_literal
  | ELiteral _ _ tk_decimal_literal | ELiteral _ _ tk_hexadecimal_literal => ret TInt
  | _ => throw s_stuck
  end
with type_meant (t : type_node) {struct t} : res ctype :=
  match t with
  | Type_Node _ tt_Void None _ => ret TVoid
  | Type_Node _ tt_Bool None _ => ret TBool
  | Type_Node _ tt_Int None _ => ret TInt
  | Type_Node _ tt_Uint (Some width) _ =>
      do v <- ev (static_call K) empty_env width;
      match v with
      | CV TInt z => if (1 <=? z) && (z <=? 127) then ret (TUint z) else throw s_stuck
      | _ => throw s_stuck
      end
  | _ => throw s_stuck
  end.

(** The arguments of a call, as above. *)
Definition ev_args (call : positive -> list cvalue -> res cvalue) (vars : env) :=
  fix ev_args (types : list ctype) (l : list expr) {struct l} : res (list cvalue) :=
    match l, types with
    | [], [] => ret []
    | a :: rest, t :: types' =>
        do v <- ev call vars a;
        do w <- convert v t;
        do ws <- ev_args types' rest;
        ret (w :: ws)
    | _, _ => throw s_stuck
    end.

(** A constant expression. *)
Definition ev_static (e : expr) : res cvalue := ev (static_call K) empty_env e.

(** Statements. Constants and static assertions do nothing when a program runs. *)
Fixpoint ex (call : positive -> list cvalue -> res cvalue) (return_type : ctype) (fuel : nat) (vars : env)
  (s : stmt) {struct s} : res (ctl * env) :=
  match s with
  | SConst _ _ _ _ _ | SStatic_Assert _ _ => ret (Normal, vars)
  | SLet _ _ self _ init =>
      match init with
      | None => ret (Normal, vars)
      | Some e =>
          do v <- ev call vars e;
          do t <- static_type K self;
          do w <- convert v t;
          ret (Normal, update vars self w)
      end
  | SIf _ condition if_block else_node =>
      do c <- ev call vars condition;
      do b <- truth c;
      if (b : bool) then ex call return_type fuel vars if_block
      else match else_node with
           | None => ret (Normal, vars)
           | Some s1 => ex call return_type fuel vars s1
           end
  | SWhile _ condition block =>
      loop (fun vars => do c <- ev call vars condition; truth c)
        (fun vars => ex call return_type fuel vars block) fuel vars
  | SControl _ ctl_break _ => ret (Breaks, vars)
  | SControl _ ctl_continue _ => ret (Continues, vars)
  | SControl _ ctl_return e =>
      do v <-
        match e with
        | None => ret cv_Void
        | Some e1 => do v <- ev call vars e1; convert v return_type
        end;
      ret (Returns v, vars)
  | SAssign _ _ (Some (LNode DLet n)) e =>
      do v <- ev call vars e;
      do t <- static_type K n;
      do w <- convert v t;
      ret (Normal, update vars n w)
  | SAssign _ _ _ _ => throw s_stuck
  | SBlock _ children =>
      (fix ex_children (l : list stmt) (vars : env) : res (ctl * env) :=
         match l with
         | [] => ret (Normal, vars)
         | s1 :: rest =>
             do r <- ex call return_type fuel vars s1;
             match r with
             | (Normal, vars') => ex_children rest vars'
             | stopped => ret stopped
             end
         end) children vars
  | SExpr e =>
      do _ <- ev call vars e;
      ret (Normal, vars)
  end.

(** The statements of a block, as above. *)
Definition ex_children (call : positive -> list cvalue -> res cvalue) (return_type : ctype) (fuel : nat) :=
  fix ex_children (l : list stmt) (vars : env) : res (ctl * env) :=
    match l with
    | [] => ret (Normal, vars)
    | s1 :: rest =>
        do r <- ex call return_type fuel vars s1;
        match r with
        | (Normal, vars') => ex_children rest vars'
        | stopped => ret stopped
        end
    end.

End Static.

(** The types of a list of type nodes. *)
Fixpoint types_meant (K : statics) (l : list type_node) : res (list ctype) :=
  match l with
  | [] => ret []
  | t :: rest =>
      do c <- type_meant K t;
      do cs <- types_meant K rest;
      ret (c :: cs)
  end.

Section Program.

Variable table : positive -> option func.
Variable decls : positive -> option declaration.

(** Calling a function: [fuel] bounds the depth of calls and the iterations of every loop. *)
Fixpoint run_call (K : statics) (fuel : nat) (n : positive) (args : list cvalue) : res cvalue :=
  match fuel with
  | O => None
  | S fuel' =>
      match table n with
      | None => throw s_stuck
      | Some f =>
          match bind_parameters (f_params f) args with
          | None => throw s_stuck
          | Some vars =>
              do s <- static_signature K n;
              do r <- ex K (run_call K fuel') (snd s) fuel' vars (f_body f);
              match r with
              | (Returns v, _) => ret v
              | (Normal, _) =>
                  match snd s with
                  | TVoid => ret cv_Void
                  | _ => throw s_no_value
                  end
              | (Breaks, _) | (Continues, _) => throw s_break_outside_loop
              end
          end
      end
  end.

(** The value of a constant: that of its initialiser, converted to the declared type. *)
Definition constant_value (K : statics) (p : positive) : res cvalue :=
  match decls p with
  | Some (Decl_Const None e) => ev_static K e
  | Some (Decl_Const (Some t) e) =>
      do v <- ev_static K e;
      do c <- type_meant K t;
      convert v c
  | _ => throw s_stuck
  end.

(** The type of a variable, constant or parameter: the declared one, or that of the initialiser. *)
Definition declared_type (K : statics) (p : positive) : res ctype :=
  match decls p with
  | Some (Decl_Const (Some t) _) | Some (Decl_Let (Some t) _) | Some (Decl_Parameter t) => type_meant K t
  | Some (Decl_Const None e) | Some (Decl_Let None (Some e)) => type_of K e
  | _ => throw s_stuck
  end.

Definition signature (K : statics) (n : positive) : res (list ctype * ctype) :=
  match table n with
  | None => throw s_stuck
  | Some f =>
      do ts <- types_meant K (map p_type (f_params f));
      do t <- type_meant K (f_return f);
      ret (ts, t)
  end.

(** What can be found out with limited effort. *)
Fixpoint statics_of (effort : nat) : statics :=
  match effort with
  | O => Statics (fun _ _ => None) (fun _ => None) (fun _ => None) (fun _ => None)
  | S less =>
      let K := statics_of less in
      Statics (run_call K less) (constant_value K) (declared_type K) (signature K)
  end.

End Program.

(** The meaning of a call in a program: [effort] bounds what is computed before the program runs, [fuel]
    bounds the run. *)
Definition program_call (table : positive -> option func) (items : list item) (effort fuel : nat)
  (n : positive) (args : list cvalue) : res cvalue :=
  run_call table (statics_of table (declaration_of table items) effort) fuel n args.

(** A static assertion of the program, outside of functions or in a function. *)
Definition asserted (table : positive -> option func) (items : list item) (e : expr) : Prop :=
  exists cv, In (Item_Statement (SStatic_Assert cv e)) items
    \/ exists n f, table n = Some f /\ In (SStatic_Assert cv e) (stmts_in (f_body f)).
