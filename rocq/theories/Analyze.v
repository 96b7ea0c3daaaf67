(** Analysis of types and constants.  Models src/bms/analyze.cpp:20-1113, without bit-generic functions.

    Analysis fills in members of the nodes of the syntax tree.  Here the tree is rebuilt: the analysis of a
    node yields the node with its members filled in.  What other nodes reach through pointers is part of a
    [state]: the functions, and the [const_value] of every [let] node, [const] node and parameter type.

    Simplifications.
    - A function whose own parameter or return type needs a call of that function is analysed from the
      parameter types as they were before; neither the C++ code nor the model ends in this case.
    - Calls of generic functions and uses of the width of a generic parameter give [outside_model].
    - The recursion through calls, and runs of the virtual machine, are limited by fuel; [None] means that
      the fuel did not suffice.
    - Diagnostic information in errors is left out. *)
From Coq Require Import ZArith List Bool.
From Verif Require Import Prelude Types Ops Text Tables AbsOps Literals LinMap VM Ast Codegen.
Import ListNotations.
Open Scope Z_scope.

(** [Analysis_Error_Code], as far as it is used by analyze.cpp (src/bms/analysis_error.hpp:17-110), with
    the code of the failed evaluation or execution where there is one (131-180). *)
Inductive analysis_error : Type :=
| a_type (e : type_check_error)
| a_evaluation (e : eval_error)
| a_execution (c : exec_code)
| a_codegen (e : codegen_error)
| a_call_to_unanalyzed
| a_requires_clause_not_bool
| a_requires_clause_not_satisfied
| a_width_not_integer
| a_width_invalid
| a_incompatible_types
| a_static_assert_expression_not_bool
| a_static_assertion_failed
| a_condition_not_bool
| a_break_outside_loop
| a_continue_outside_loop
| a_empty_return_in_non_void_function
| a_assigning_parameter
| a_assigning_function
| a_assigning_const
| a_non_bool_logical
| a_call_non_function
| a_wrong_number_of_arguments
| a_parameter_in_constant_expression
| a_let_variable_in_constant_expression
| a_function_in_expression
| a_use_of_undefined_variable
| a_use_of_undefined_constant
| a_invalid_integer_literal
| outside_model.

(** [Expression_Context] (src/bms/analyze.cpp:35-40). *)
Inductive context : Type := normal | constant.
(** [context == Expression_Context::constant] (e.g. src/bms/analyze.cpp:635). *)
Definition is_constant (c : context) : bool := match c with constant => true | normal => false end.

(** [operator<=>] of [Analysis_Level] (src/bms/analysis_level.hpp:33-36). *)
Definition level_index (l : level) : Z :=
  match l with unanalyzed => 0 | shallow => 1 | full => 2 | for_constant_evaluation => 3 end.
(** [x <= y] for levels (src/bms/analysis_level.hpp:33-36). *)
Definition level_leb (x y : level) : bool := level_index x <=? level_index y.

(** What is reachable from a [Type_Analyzer] (src/bms/analyze.cpp:44-46): the functions,
    the [const_value] of variables, constants and parameter types, the virtual machine
    (src/bms/analyzed_program.hpp) and [m_function_stack]. *)
Record state : Type := State {
  st_functions : positive -> option func;
  st_values : positive -> option avalue;
  st_vm : vm;
  st_stack : list positive
}.

(** A member function of [Type_Analyzer] (e.g. src/bms/analyze.cpp:76). *)
Definition M (A : Type) : Type := state -> option (outcome analysis_error (A * state)).
(** [return {}] (e.g. src/bms/analyze.cpp:80). *)
Definition mret {A} (a : A) : M A := fun st => Some (Ok (a, st)).
(** [if (!r) return r;] (e.g. src/bms/analyze.cpp:97-99). *)
Definition mbind {A B} (x : M A) (f : A -> M B) : M B :=
  fun st =>
    match x st with
    | None => None
    | Some (Ok (a, st')) => f a st'
    | Some (Err e) => Some (Err e)
    | Some Abort => Some Abort
    | Some UB => Some UB
    end.
Declare Scope analysis_scope.
Notation "'let!' x ':=' m 'in' k" := (mbind m (fun x => k))
  (at level 200, x pattern, m at level 100, k at level 200, right associativity) : analysis_scope.
Open Scope analysis_scope.

(** [return Analysis_Error_Builder { code }...build();] (e.g. src/bms/analyze.cpp:149-153). *)
Definition mfail {A} (e : analysis_error) : M A := fun _ => Some (Err e).
(** A failed assertion or thrown exception (src/common/assert.hpp:20-31). *)
Definition mabort {A} : M A := fun _ => Some Abort.
(** Undefined behaviour, e.g. following an invalid pointer (src/bms/analyze.cpp:806, 913). *)
Definition mub {A} : M A := fun _ => Some UB.
(** [BIT_MANIPULATION_ASSERT] (src/common/assert.hpp:20-24). *)
Definition massert (b : bool) : M unit := if b then mret tt else mabort.
(** An outcome, with an error turned into an analysis error by [f]
    ([Analysis_Error_Builder { code }], e.g. src/bms/analyze.cpp:654, 721). *)
Definition lift {E A} (f : E -> analysis_error) (x : outcome E A) : M A :=
  match x with
  | Ok a => mret a
  | Err e => mfail (f e)
  | Abort => mabort
  | UB => mub
  end.
(** [std::optional::value] or an assertion that there is a value (e.g. src/bms/analyze.cpp:594, 772). *)
Definition mvalue {A} (x : option A) : M A := match x with Some a => mret a | None => mabort end.
(** [concrete_type().value()] (src/bms/analyze.cpp:212, 236, 478, 930). *)
Definition mtype (t : type_node) : M ctype :=
  fun st => match @concrete_type_value unit t with
            | Ok c => mret c st
            | Err _ | Abort => mabort st
            | UB => mub st
            end.
(** [eval_result ? *eval_result : Value::unknown_of_type(type)] (e.g. src/bms/analyze.cpp:504): a failed
    assertion during the evaluation ends the analysis. *)
Definition or_unknown (r : outcome eval_error avalue) (t : ctype) : M avalue :=
  match r with
  | Ok v => mret v
  | Err _ => mret (unknown_of_type t)
  | Abort => mabort
  | UB => mub
  end.

(** Access to the members of the state. *)
Definition mget : M state := fun st => Some (Ok (st, st)).
(** [*looked_up_node] and [get_if<Function>] (src/bms/analyze.cpp:800-802): a pointer that leads nowhere
    is invalid. *)
Definition get_function (n : positive) : M func :=
  fun st => match st_functions st n with Some f => mret f st | None => mub st end.
(** Assignment to members of a function node (e.g. src/bms/analyze.cpp:144, 167, 195). *)
Definition set_function (n : positive) (change : func -> func) : M unit :=
  fun st =>
    Some (Ok (tt, State (fun p => if Pos.eqb p n then option_map change (st_functions st p)
                                  else st_functions st p)
                    (st_values st) (st_vm st) (st_stack st))).
(** [node.const_value() = ...] for [let] and [const] nodes and parameter types (e.g.
    src/bms/analyze.cpp:264, 322, 212). *)
Definition set_value (n : positive) (v : option avalue) : M unit :=
  fun st =>
    Some (Ok (tt, State (st_functions st) (fun p => if Pos.eqb p n then v else st_values st p)
                    (st_vm st) (st_stack st))).
(** Changes of the virtual machine (src/bms/analyze.cpp:182, 925-926, 947, 955). *)
Definition set_vm (m : vm) : M unit :=
  fun st => Some (Ok (tt, State (st_functions st) (st_values st) m (st_stack st))).
(** [push_function] (src/bms/analyze.cpp:55-59). *)
Definition push_function (n : positive) : M unit :=
  fun st => Some (Ok (tt, State (st_functions st) (st_values st) (st_vm st) (n :: st_stack st))).
(** The end of a [Function_Stack_Scope] (src/bms/analyze.cpp:50-53). *)
Definition pop_function : M unit :=
  fun st => Some (Ok (tt, State (st_functions st) (st_values st) (st_vm st) (tl (st_stack st)))).

(** What the code generator reads through pointers to function nodes (src/bms/vm/codegen.cpp:15-32,
    478-484). *)
Definition info_of (table : positive -> option func) : functions :=
  fun n =>
    match table n with
    | Some f =>
        Some (FunctionInfo (map (fun p => type_cv (p_type p)) (f_params f))
                (match f_cv f with Some _ => true | None => false end) (f_address f))
    | None => None
    end.

(** Changes of single members of a function node. *)
Definition with_signature (params : list parameter) (ret : type_node) (f : func) : func :=
  (* src/bms/analyze.cpp:127, 133 *)
  Func (f_name f) (f_self f) (f_cv f) params ret (f_requires f) (f_body f) (f_generic f) (f_address f)
    (f_level f).
Definition with_requires (e : expr) (f : func) : func := (* src/bms/analyze.cpp:147-155 *)
  Func (f_name f) (f_self f) (expr_cv e) (f_params f) (f_return f) (Some e) (f_body f) (f_generic f)
    (f_address f) (f_level f).
Definition with_level (l : level) (f : func) : func := (* src/bms/analyze.cpp:171-173 *)
  Func (f_name f) (f_self f) (f_cv f) (f_params f) (f_return f) (f_requires f) (f_body f) (f_generic f)
    (f_address f) l.
Definition with_body (b : stmt) (f : func) : func := (* src/bms/analyze.cpp:175 *)
  Func (f_name f) (f_self f) (f_cv f) (f_params f) (f_return f) (f_requires f) b (f_generic f)
    (f_address f) (f_level f).
Definition with_address (a : Z) (f : func) : func := (* src/bms/analyze.cpp:190 *)
  Func (f_name f) (f_self f) (f_cv f) (f_params f) (f_return f) (f_requires f) (f_body f) (f_generic f)
    (Some a) (f_level f).
Definition with_result (cv : option avalue) (l : level) (f : func) : func :=
  (* src/bms/analyze.cpp:198-199 *)
  Func (f_name f) (f_self f) cv (f_params f) (f_return f) (f_requires f) (f_body f) (f_generic f)
    (f_address f) l.

Section Analysis.

(** Analysis of the function a call leads to. *)
Variable callee : positive -> level -> M unit.
(** How long the virtual machine may run. *)
Variable run_fuel : nat.

(** The arguments of a call are checked against the parameters and, in a constant expression, pushed
    (src/bms/analyze.cpp:929-949). *)
Fixpoint pass_arguments (cx : context) (params : list parameter) (args : list avalue) : M unit :=
  match params, args with
  | p :: params', a :: args' =>
      let! param_type := mtype (p_type p) in
      if negb (is_convertible_to (av_type a) param_type) then mfail a_incompatible_types
      else
        let conv_result := value_evaluate_conversion a param_type in
        let! _ :=
          (match conv_result with
           | Abort => mabort
           | UB => mub
           | Err e => if is_constant cx then mfail (a_evaluation e) else mret tt
           | Ok v =>
               if is_constant cx then
                 let! c := lift (fun e => e) (concrete_value v) in
                 let! st := mget in
                 set_vm (vm_push (st_vm st) c)
               else mret tt
           end) in
        pass_arguments cx params' args'
  | _, _ => mret tt
  end.

(** Running the virtual machine (src/bms/analyze.cpp:954-968). *)
Definition evaluate_call : M avalue :=
  fun st =>
    match run run_fuel (st_vm st) with
    | None => None
    | Some (Err x) =>
        match ee_code x with
        | x_pop_call =>
            (let! _ := set_vm (ee_machine x) in
             let! _ := massert (Z.of_nat (length (vm_stack (ee_machine x))) =? 1) in
             let! (v, m) := lift (fun e => e) (vm_pop (ee_machine x)) in
             let! _ := set_vm m in
             mret (known v)) st
        | c => mfail (a_execution c) st
        end
    | Some (Ok _) => mabort st (* not possible: the loop ends with an error *)
    | Some Abort => mabort st
    | Some UB => mub st
    end.

(** Calls, after the arguments have been analysed (src/bms/analyze.cpp:775-975); yields the
    [const_value] of the node. *)
Definition an_call (lv : level) (cx : context) (lk : option lookup) (args : list avalue) : M avalue :=
  let! target := mvalue lk in (* line 760 *)
  match target with
  | LBuiltin b => (* lines 777-796 *)
      let! _ := lift a_type (check_builtin_function b (map av_type args)) in
      lift a_evaluation (value_evaluate_builtin_function b args)
  | LParameter _ => mub (* line 806: *looked_up_node of a null pointer *)
  | LNode DFunction n =>
      let! f := get_function n in
      if negb (Nat.eqb (length (f_params f)) (length args)) then mfail a_wrong_number_of_arguments
      else if f_generic f then mfail outside_model (* lines 828-870 *)
      else
        let inner_level :=
          match cx, lv with
          | constant, _ | _, for_constant_evaluation => for_constant_evaluation
          | _, _ => shallow
          end in
        let! st := mget in
        if (match inner_level with for_constant_evaluation => true | _ => false end)
           && existsb (Pos.eqb n) (st_stack st)
        then mfail a_call_to_unanalyzed (* lines 892-905 *)
        else
          let! _ := callee n inner_level in
          let! f := get_function n in
          let! _ := massert (level_leb inner_level (f_level f)) in
          match f_cv f with
          | None => mub (* line 913 *)
          | Some return_value =>
              let! _ :=
                (if is_constant cx then (* lines 923-927 *)
                   let! address := mvalue (f_address f) in
                   let! st := mget in
                   let! m := lift (fun e => e) (vm_jump_to (vm_reset (st_vm st)) address) in
                   set_vm m
                 else mret tt) in
              let! _ := pass_arguments cx (f_params f) args in
              if is_constant cx then evaluate_call
              else mret (unknown_of_type (av_type return_value))
          end
  | LNode _ _ => mfail a_call_non_function
  end.

(** Identifiers (src/bms/analyze.cpp:977-1067). *)
Definition an_id (cx : context) (lk : option lookup) : M (option avalue) :=
  let! target := mvalue lk in (* line 990 *)
  let! st := mget in
  match target with
  | LParameter p =>
      if is_constant cx then mfail a_parameter_in_constant_expression
      else mret (st_values st p)
  | LBuiltin _ => mabort (* line 1005: get<Some_Node*> of another alternative throws *)
  | LNode DFunction _ => mfail a_function_in_expression
  | LNode DLet n =>
      if is_constant cx then mfail a_let_variable_in_constant_expression
      else match st_values st n with
           | None => mfail a_use_of_undefined_variable
           | Some v => mret (Some v)
           end
  | LNode DConst n =>
      match st_values st n with
      | None => mfail a_use_of_undefined_constant
      | Some v => mret (Some v)
      end
  | LNode DWidth _ => mfail outside_model
  end.

(** Literals (src/bms/analyze.cpp:1078-1102). *)
Definition an_literal (lit : text) (type : token_type) : M avalue :=
  match type with
  | tk_keyword_true => mret (AV TBool (Some 1))
  | tk_keyword_false => mret (AV TBool (Some 0))
  | tk_binary_literal | tk_octal_literal | tk_decimal_literal | tk_hexadecimal_literal =>
      match parse_integer_literal lit with
      | None => mfail a_invalid_integer_literal
      | Some z => mret (AV TInt (Some z))
      end
  | _ => mabort
  end.

(** Expressions (src/bms/analyze.cpp:579-1103) and types (204-238). *)
Fixpoint an_expr (lv : level) (cx : context) (e : expr) {struct e} : M expr :=
  match e with
  | EConversion _ e1 target => (* lines 579-611 *)
      let! e1' := an_expr lv cx e1 in
      let! target' := an_type target in
      let! v := mvalue (expr_cv e1') in
      let! t := mtype target' in
      if negb (is_convertible_to (av_type v) t) then mfail a_incompatible_types
      else
        let! r := or_unknown (value_evaluate_conversion v t) t in
        mret (EConversion (Some r) e1' target')
  | EIf _ lhs condition rhs => (* lines 613-665 *)
      let! condition' := an_expr lv cx condition in
      match expr_cv condition' with
      | None => mub (* line 623 *)
      | Some c =>
          if negb (ctype_eqb (av_type c) TBool) then mfail a_condition_not_bool
          else
            let! evaluate_left :=
              (if is_constant cx then
                 let! _ := massert (is_known c) in
                 lift (fun e => e) (as_bool c)
               else mret true) in
            let left_context := if is_constant cx && negb evaluate_left then normal else cx in
            let right_context := if is_constant cx && evaluate_left then normal else cx in
            let! lhs' := an_expr lv left_context lhs in
            let! rhs' := an_expr lv right_context rhs in
            match expr_cv lhs', expr_cv rhs' with
            | Some l, Some r =>
                let! t := lift a_type (check_if_expression (av_type l) (av_type c) (av_type r)) in
                let eval_result := value_evaluate_if_expression l c r in
                let! _ :=
                  massert (negb (is_constant cx)
                           || match eval_result with Err _ => false | _ => true end) in
                let! v := or_unknown eval_result t in
                mret (EIf (Some v) lhs' condition' rhs')
            | _, _ => mub (* line 652 *)
            end
      end
  | EBinary _ op lhs rhs => (* lines 667-726 *)
      let! lhs' := an_expr lv cx lhs in
      let left_value := expr_cv lhs' in
      let! _ :=
        massert (negb (is_constant cx)
                 || match left_value with Some v => is_known v | None => false end) in
      let! cx' :=
        (match op with
         | logical_and | logical_or =>
             if is_constant cx then
               let! l := mvalue left_value in
               if negb (ctype_eqb (av_type l) TBool) then mfail a_non_bool_logical
               else
                 let circuit_breaker := match op with logical_or => true | _ => false end in
                 let! b := lift (fun e => e) (as_bool l) in
                 mret (if Bool.eqb b circuit_breaker then normal else cx)
             else mret cx
         | _ => mret cx
         end) in
      let! rhs' := an_expr lv cx' rhs in
      let right_value := expr_cv rhs' in
      let! _ :=
        massert (negb (is_constant cx')
                 || match right_value with Some v => is_known v | None => false end) in
      match left_value, right_value with
      | Some l, Some r =>
          let! t := lift a_type (check_binary_operator (av_type l) op (av_type r)) in
          let eval_result := value_evaluate_binary_operator l op r in
          match eval_result, cx' with
          | Err e, constant => mfail (a_evaluation e)
          | _, _ =>
              let! v := or_unknown eval_result t in
              mret (EBinary (Some v) op lhs' rhs')
          end
      | _, _ => mub (* line 713 *)
      end
  | EPrefix _ op e1 => (* lines 728-752 *)
      let! e1' := an_expr lv cx e1 in
      let! x := mvalue (expr_cv e1') in
      let! t := lift a_type (check_unary_operator op (av_type x)) in
      let eval_result := value_evaluate_unary_operator op x in
      match eval_result, cx with
      | Err e, constant => mfail (a_evaluation e)
      | _, _ =>
          let! v := or_unknown eval_result t in
          mret (EPrefix (Some v) op e1')
      end
  | ECall _ name lk is_statement args => (* lines 754-975 *)
      let! _ := mvalue lk in
      let! (args', values) :=
        (fix an_args (l : list expr) : M (list expr * list avalue) :=
           match l with
           | [] => mret ([], [])
           | a :: rest =>
               let! a' := an_expr lv cx a in
               let! v := mvalue (expr_cv a') in
               let! (rest', vs) := an_args rest in
               mret (a' :: rest', v :: vs)
           end) args in
      let! v := an_call lv cx lk values in
      mret (ECall (Some v) name lk is_statement args')
  | EId cv name lk generic =>
      match cv with
      | Some _ => mret e (* lines 983-989 *)
      | None =>
          let! v := an_id cx lk in
          mret (EId v name lk generic)
      end
  | ELiteral cv lit type =>
      match cv with
      | Some v => let! _ := massert (is_known v) in mret e (* lines 1074-1077 *)
      | None =>
          let! v := an_literal lit type in
          mret (ELiteral (Some v) lit type)
      end
  end
with an_type (t : type_node) {struct t} : M type_node :=
  match t with
  | Type_Node (Some _) _ _ _ => mret t (* lines 208-210 *)
  | Type_Node None k None w => (* lines 211-214 *)
      let! c := mtype t in
      mret (Type_Node (Some (unknown_of_type c)) k None w)
  | Type_Node None k (Some width) _ => (* lines 216-237 *)
      let! width' := an_expr for_constant_evaluation constant width in
      let! v := mvalue (expr_cv width') in
      if negb (is_integer (av_type v)) then mfail a_width_not_integer
      else
        let! n := lift (fun e => e) (as_int v) in
        if (n <=? 0) || (uint_max_width <? n) then mfail a_width_invalid
        else
          let! c := mtype (Type_Node None k (Some width') (Some n)) in
          mret (Type_Node (Some (unknown_of_type c)) k (Some width') (Some n))
  end.

(** The [const_value] of an initialiser, dereferenced without a check (src/bms/analyze.cpp:282, 343). *)
Definition deref (v : option avalue) : M avalue := match v with Some a => mret a | None => mub end.

(** Statements (src/bms/analyze.cpp:240-577) inside of a function with the given return type, and global
    constants and static assertions; [in_loop]: some ancestor is a [While_Statement]. *)
Fixpoint an_stmt (return_type : option type_node) (lv : level) (in_loop : bool) (s : stmt) {struct s}
  : M stmt :=
  match s with
  | SConst cv name self type init => (* lines 240-298 *)
      match cv with
      | Some _ => mret s
      | None =>
          match type with
          | None =>
              let! init' := an_expr for_constant_evaluation constant init in
              let! v := deref (expr_cv init') in
              let! _ := set_value self (Some v) in
              let! _ := massert (is_known v) in
              mret (SConst (Some v) name self None init')
          | Some t =>
              let! t' := an_type t in
              let! init' := an_expr for_constant_evaluation constant init in
              let! tv := mvalue (type_cv t') in
              let! v := deref (expr_cv init') in
              if negb (is_convertible_to (av_type v) (av_type tv)) then mfail a_incompatible_types
              else
                let! r := lift a_evaluation (value_evaluate_conversion v (av_type tv)) in
                let! _ := set_value self (Some r) in
                mret (SConst (Some r) name self (Some t') init')
          end
      end
  | SLet _ name self type init => (* lines 300-351 *)
      match type with
      | None =>
          let! e := mvalue init in
          let! e' := an_expr lv normal e in
          let! v := mvalue (expr_cv e') in
          let cv := Some (unknown_of_type (av_type v)) in
          let! _ := set_value self cv in
          mret (SLet cv name self None (Some e'))
      | Some t =>
          let! t' := an_type t in
          match init with
          | None =>
              let! c := mtype t' in
              let cv := Some (unknown_of_type c) in
              let! _ := set_value self cv in
              mret (SLet cv name self (Some t') None)
          | Some e =>
              let! e' := an_expr lv normal e in
              let! tv := mvalue (type_cv t') in
              let! v := deref (expr_cv e') in
              if negb (is_convertible_to (av_type v) (av_type tv)) then mfail a_incompatible_types
              else
                let! c := mtype t' in
                let cv := Some (unknown_of_type c) in
                let! _ := set_value self cv in
                mret (SLet cv name self (Some t') (Some e'))
          end
      end
  | SStatic_Assert cv e => (* lines 353-391 *)
      match cv with
      | Some v => let! _ := massert (is_known v) in mret s
      | None =>
          let! e' := an_expr for_constant_evaluation constant e in
          let! v := mvalue (expr_cv e') in
          let! _ := massert (is_known v) in
          if negb (ctype_eqb (av_type v) TBool) then mfail a_static_assert_expression_not_bool
          else
            let! b := lift (fun e => e) (as_bool v) in
            if negb b then mfail a_static_assertion_failed
            else mret (SStatic_Assert (Some v) e')
      end
  | SIf _ condition if_block else_node => (* lines 393-424 *)
      let! condition' := an_expr lv normal condition in
      let! c := mvalue (expr_cv condition') in
      if negb (ctype_eqb (av_type c) TBool) then mfail a_condition_not_bool
      else
        let! if_block' := an_stmt return_type lv in_loop if_block in
        let! else_node' :=
          (match else_node with
           | None => mret None
           | Some e => let! e' := an_stmt return_type lv in_loop e in mret (Some e')
           end) in
        mret (SIf (Some av_Void) condition' if_block' else_node')
  | SWhile _ condition block => (* lines 426-452 *)
      let! condition' := an_expr lv normal condition in
      let! c := mvalue (expr_cv condition') in
      if negb (ctype_eqb (av_type c) TBool) then mfail a_condition_not_bool
      else
        let! block' := an_stmt return_type lv true block in
        mret (SWhile (Some av_Void) condition' block')
  | SControl _ type e => (* lines 454-506 *)
      let! function_return := mvalue return_type in
      match type with
      | ctl_break | ctl_continue =>
          if negb in_loop then
            mfail (match type with ctl_break => a_break_outside_loop | _ => a_continue_outside_loop end)
          else mret (SControl (Some av_Void) type e)
      | ctl_return =>
          let! rt := mtype function_return in
          match e with
          | None =>
              if negb (ctype_eqb rt TVoid) then mfail a_empty_return_in_non_void_function
              else mret (SControl (Some av_Void) type None)
          | Some e1 =>
              let! e1' := an_expr lv normal e1 in
              let! v := mvalue (expr_cv e1') in
              if negb (is_convertible_to (av_type v) rt) then mfail a_incompatible_types
              else
                let! r := or_unknown (value_evaluate_conversion v rt) rt in
                mret (SControl (Some r) type (Some e1'))
          end
      end
  | SAssign _ name lk e => (* lines 508-561 *)
      let! target := mvalue lk in
      match target with
      | LParameter _ => mfail a_assigning_parameter
      | LBuiltin _ => mabort
      | LNode DFunction _ => mfail a_assigning_function
      | LNode DConst _ => mfail a_assigning_const
      | LNode DWidth _ => mabort
      | LNode DLet n =>
          let! e' := an_expr lv normal e in
          let! v := mvalue (expr_cv e') in
          let! st := mget in
          let! dest := mvalue (st_values st n) in
          if negb (is_convertible_to (av_type v) (av_type dest)) then mfail a_incompatible_types
          else
            let! r := or_unknown (value_evaluate_conversion v (av_type dest)) (av_type dest) in
            mret (SAssign (Some r) name lk e')
      end
  | SBlock _ children => (* lines 563-577 *)
      let! children' :=
        (fix an_children (l : list stmt) : M (list stmt) :=
           match l with
           | [] => mret []
           | s1 :: rest =>
               let! s1' := an_stmt return_type lv in_loop s1 in
               let! rest' := an_children rest in
               mret (s1' :: rest')
           end) children in
      mret (SBlock (Some av_Void) children')
  | SExpr e =>
      let! e' := an_expr lv normal e in
      mret (SExpr e')
  end.

(** The parameters of a function (src/bms/analyze.cpp:126-132). *)
Fixpoint an_parameters (l : list parameter) : M (list parameter) :=
  match l with
  | [] => mret []
  | p :: rest =>
      let! t := an_type (p_type p) in
      let! _ := set_value (p_self p) (type_cv t) in
      let! rest' := an_parameters rest in
      mret (Param (p_name p) (p_self p) t :: rest')
  end.

(** Functions (src/bms/analyze.cpp:105-202); generic functions have no instances in the model. *)
Definition an_function_body (n : positive) (lv : level) : M unit :=
  let! f := get_function n in
  let! _ := massert (negb (level_index lv =? 0)) in
  if level_leb lv (f_level f) then mret tt
  else if f_generic f then mret tt
  else
    let! params := an_parameters (f_params f) in
    let! return_type := an_type (f_return f) in
    let! _ := set_function n (with_signature params return_type) in
    let! _ := push_function n in
    let! _ :=
      (match f_requires f with
       | None => mret tt
       | Some e =>
           match expr_cv e with
           | Some _ => mret tt
           | None =>
               let! e' := an_expr for_constant_evaluation constant e in
               let! _ := set_function n (with_requires e') in
               let! v := mvalue (expr_cv e') in
               let! _ := massert (is_known v) in
               if negb (ctype_eqb (av_type v) TBool) then mfail a_requires_clause_not_bool
               else
                 let! b := lift (fun e => e) (as_bool v) in
                 if negb b then mfail a_requires_clause_not_satisfied else mret tt
           end
       end) in
    let! f := get_function n in
    let! _ :=
      (if level_leb shallow (f_level f) then mret tt else set_function n (with_level shallow)) in
    let! _ :=
      (if level_leb full lv then
         let! f := get_function n in
         let! body := an_stmt (Some (f_return f)) lv false (f_body f) in
         set_function n (with_body body)
       else mret tt) in
    let! _ :=
      (if level_leb for_constant_evaluation lv then
         let! f := get_function n in
         let! st := mget in
         let! code := lift a_codegen (gen_function (info_of (st_functions st)) f) in
         let '(m, address) := add_instructions (st_vm st) code in
         let! _ := set_vm m in
         set_function n (with_address address)
       else mret tt) in
    let! _ := set_function n (with_result (type_cv return_type) lv) in
    pop_function.

End Analysis.

(** The recursion through calls (src/bms/analyze.cpp:907), limited by [fuel]. *)
Fixpoint an_function (run_fuel fuel : nat) (n : positive) (lv : level) : M unit :=
  match fuel with
  | O => fun _ => None
  | S fuel' => an_function_body (an_function run_fuel fuel') run_fuel n lv
  end.

(** A child of the [Program] node (src/bms/ast.hpp): a function, or a constant or static assertion. *)
Inductive item : Type := Item_Function (n : positive) | Item_Statement (s : stmt).

(** The program (src/bms/analyze.cpp:89-103). *)
Fixpoint an_items (run_fuel fuel : nat) (l : list item) : M (list item) :=
  match l with
  | [] => mret []
  | Item_Function n :: rest =>
      let! _ := an_function run_fuel fuel n full in
      let! rest' := an_items run_fuel fuel rest in
      mret (Item_Function n :: rest')
  | Item_Statement s :: rest =>
      let! s' := an_stmt (an_function run_fuel fuel) run_fuel None full false s in
      let! rest' := an_items run_fuel fuel rest in
      mret (Item_Statement s' :: rest')
  end.

(** [analyze_semantics] (src/bms/analyze.cpp:1108-1113) of a program whose functions are [table] and whose
    nodes have not been analysed before. *)
Definition analyze_program (run_fuel fuel : nat) (table : positive -> option func) (l : list item)
  : option (outcome analysis_error (list item * state)) :=
  an_items run_fuel fuel l (State table (fun _ => None) vm_new []).
