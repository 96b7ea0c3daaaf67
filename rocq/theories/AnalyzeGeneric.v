(** Analysis of types and constants, with bit-generic functions.  Models src/bms/analyze.cpp:20-1113 once more;
    [Analyze.v] is the part without calls of bit-generic functions, and what does not depend on these is taken
    from there.

    - The state also has the instances of each generic function; an instance is one more function of the
      table, under its own identity.
    - The [const_value] that an instance gives to the identifier of a width (src/bms/instantiate.cpp:95) is in
      [g_widths], under the identity of that identifier, which is that of its parameter (see [Instantiate.v]).
    - The loop over the instances of a generic function (src/bms/analyze.cpp:116-121) has undefined behaviour
      if the function gets another instance in it, as iterators become invalid.
    - Otherwise the simplifications are those of [Analyze.v]. *)
From Coq Require Import ZArith List Bool.
From Verif Require Import Prelude Types Ops Text Tables AbsOps Literals LinMap VM Ast Codegen Analyze Instantiate.
Import ListNotations.
Open Scope Z_scope.

(** [Analysis_Error_Code] (src/bms/analysis_error.hpp:17-110), with the one that [Analyze.v] does not have. *)
Inductive generic_error : Type :=
| ge_analysis (e : analysis_error)
| ge_width_deduction_from_non_uint
| ge_expected_constant_expression.

(** What is reachable from a [Type_Analyzer] (src/bms/analyze.cpp:44-46), with [Function::instances]
    (src/bms/ast.hpp:290), the values of the identifiers of widths, and the identity of the next node. *)
Record gstate : Type := GState {
  g_st : state;
  g_instances : positive -> list instance;
  g_widths : positive -> option avalue;
  g_next : positive
}.

(** A member function of [Type_Analyzer] (e.g. src/bms/analyze.cpp:76). *)
Definition G (A : Type) : Type := gstate -> option (outcome generic_error (A * gstate)).
(** [return {}] (e.g. src/bms/analyze.cpp:80). *)
Definition gret {A} (a : A) : G A := fun g => Some (Ok (a, g)).
(** [if (!r) return r;] (e.g. src/bms/analyze.cpp:97-99). *)
Definition gbind {A B} (x : G A) (f : A -> G B) : G B :=
  fun g =>
    match x g with
    | None => None
    | Some (Ok (a, g')) => f a g'
    | Some (Err e) => Some (Err e)
    | Some Abort => Some Abort
    | Some UB => Some UB
    end.
Declare Scope generic_scope.
Notation "'let~' x ':=' m 'in' k" := (gbind m (fun x => k))
  (at level 200, x pattern, m at level 100, k at level 200, right associativity) : generic_scope.
Open Scope generic_scope.

(** The rest of the state stays as it is. *)
Definition with_st (st : state) (g : gstate) : gstate := (* src/bms/analyze.cpp:44-46 *)
  GState st (g_instances g) (g_widths g) (g_next g).
(** What [Analyze.v] says, for the larger state (src/bms/analyze.cpp:44-46). *)
Definition up {A} (m : M A) : G A :=
  fun g =>
    match m (g_st g) with
    | None => None
    | Some (Ok (a, st)) => Some (Ok (a, with_st st g))
    | Some (Err e) => Some (Err (ge_analysis e))
    | Some Abort => Some Abort
    | Some UB => Some UB
    end.

(** The operations of [Analyze.v], with the citations there. *)
Definition gfail {A} (e : analysis_error) : G A := up (mfail e). (* src/bms/analyze.cpp:149-153 *)
Definition gabort {A} : G A := up mabort. (* src/common/assert.hpp:20-31 *)
Definition gub {A} : G A := up mub. (* src/bms/analyze.cpp:806, 913 *)
Definition gassert (b : bool) : G unit := up (massert b). (* src/common/assert.hpp:20-24 *)
Definition glift {E A} (f : E -> analysis_error) (x : outcome E A) : G A := up (lift f x). (* src/bms/analyze.cpp:654 *)
Definition gvalue {A} (x : option A) : G A := up (mvalue x). (* src/bms/analyze.cpp:594, 772 *)
Definition gtype (t : type_node) : G ctype := up (mtype t). (* src/bms/analyze.cpp:212, 236, 478, 930 *)
Definition gor_unknown (r : outcome eval_error avalue) (t : ctype) : G avalue := up (or_unknown r t). (* src/bms/analyze.cpp:504 *)
Definition gderef (v : option avalue) : G avalue := up (deref v). (* src/bms/analyze.cpp:282, 343 *)
Definition gget : G state := up mget. (* src/bms/analyze.cpp:44-46 *)
Definition gget_function (n : positive) : G func := up (get_function n). (* src/bms/analyze.cpp:800-802 *)
Definition gset_function (n : positive) (c : func -> func) : G unit := up (set_function n c). (* src/bms/analyze.cpp:144 *)
Definition gset_value (n : positive) (v : option avalue) : G unit := up (set_value n v). (* src/bms/analyze.cpp:264 *)
Definition gset_vm (m : vm) : G unit := up (set_vm m). (* src/bms/analyze.cpp:182 *)
Definition gpush_function (n : positive) : G unit := up (push_function n). (* src/bms/analyze.cpp:55-59 *)
Definition gpop_function : G unit := up pop_function. (* src/bms/analyze.cpp:50-53 *)
Definition gan_literal (lit : text) (type : token_type) : G avalue := up (an_literal lit type). (* src/bms/analyze.cpp:1078-1102 *)

(** The value that an instance gives to the identifier [n] of a width (src/bms/instantiate.cpp:90-96). *)
Fixpoint width_in (l : list parameter) (n : positive) : option avalue :=
  match l with
  | [] => None
  | p :: r =>
      match p_type p with
      | Type_Node _ _ (Some (EId cv _ _ (Some k))) _ => if Pos.eqb k n then cv else width_in r n
      | _ => width_in r n
      end
  end.

(** The instance for a call of the generic function [f] under the identity [n]
    (src/bms/analyze.cpp:828-870); a new one becomes a function of the program
    (src/bms/instantiate.cpp:126, 69). *)
Definition call_instance (n : positive) (f : func) (args : list avalue) : G positive :=
  fun g =>
    match instance_for_call f (g_instances g n) (map av_type args) (g_next g) with
    | Ok (i, instances, next) =>
        let self := f_self (i_function i) in
        let st := g_st g in
        Some (Ok (self,
          GState
            (State (fun p => if Pos.eqb p self
                             then match st_functions st p with Some h => Some h | None => Some (i_function i) end
                             else st_functions st p)
                   (st_values st) (st_vm st) (st_stack st))
            (fun p => if Pos.eqb p n then instances else g_instances g p)
            (fun p => match width_in (f_params (i_function i)) p with Some v => Some v | None => g_widths g p end)
            next))
    | Err width_deduction_from_non_uint => Some (Err ge_width_deduction_from_non_uint)
    | Abort => Some Abort
    | UB => Some UB
    end.

Section Generic.

(** Analysis of the function a call leads to. *)
Variable callee : positive -> level -> G unit.
(** How long the virtual machine may run. *)
Variable run_fuel : nat.

(** Calls, after the arguments have been analysed (src/bms/analyze.cpp:775-975); yields the
    [lookup_result] and the [const_value] of the node. *)
Definition gan_call (lv : level) (cx : context) (lk : option lookup) (args : list avalue) : G (lookup * avalue) :=
  let~ target := gvalue lk in (* line 760 *)
  match target with
  | LBuiltin b => (* lines 777-796 *)
      let~ _ := glift a_type (check_builtin_function b (map av_type args)) in
      let~ v := glift a_evaluation (value_evaluate_builtin_function b args) in
      gret (target, v)
  | LParameter _ => gub (* line 806: *looked_up_node of a null pointer *)
  | LNode DFunction n =>
      let~ f := gget_function n in
      if negb (Nat.eqb (length (f_params f)) (length args)) then gfail a_wrong_number_of_arguments
      else
        let~ n := (if f_generic f then call_instance n f args else gret n) in (* lines 828-870 *)
        let~ f := gget_function n in
        let~ _ := gassert (negb (f_generic f)) in (* line 874 *)
        let inner_level :=
          match cx, lv with
          | constant, _ | _, for_constant_evaluation => for_constant_evaluation
          | _, _ => shallow
          end in
        let~ st := gget in
        if (match inner_level with for_constant_evaluation => true | _ => false end)
           && existsb (Pos.eqb n) (st_stack st)
        then gfail a_call_to_unanalyzed (* lines 892-905 *)
        else
          let~ _ := callee n inner_level in
          let~ f := gget_function n in
          let~ _ := gassert (level_leb inner_level (f_level f)) in
          match f_cv f with
          | None => gub (* line 913 *)
          | Some return_value =>
              let~ _ :=
                (if is_constant cx then (* lines 923-927 *)
                   let~ address := gvalue (f_address f) in
                   let~ st := gget in
                   let~ m := glift (fun e => e) (vm_jump_to (vm_reset (st_vm st)) address) in
                   gset_vm m
                 else gret tt) in
              let~ _ := up (pass_arguments cx (f_params f) args) in
              if is_constant cx then let~ v := up (evaluate_call run_fuel) in gret (LNode DFunction n, v)
              else gret (LNode DFunction n, unknown_of_type (av_type return_value))
          end
  | LNode _ _ => gfail a_call_non_function
  end.

(** Identifiers (src/bms/analyze.cpp:977-1067); the identifier of a width that has no value has no
    [lookup_result] either, and fails the assertion of line 990. *)
Definition gan_id (cx : context) (lk : option lookup) : G (option avalue) :=
  match lk with
  | Some (LNode DWidth n) =>
      fun g =>
        match g_widths g n with
        | None => Some Abort
        | Some v =>
            if is_constant cx && negb (is_known v) then Some (Err ge_expected_constant_expression)
            else Some (Ok (Some v, g))
        end
  | _ => up (an_id cx lk)
  end.

(** Expressions (src/bms/analyze.cpp:579-1103) and types (204-238). *)
Fixpoint gan_expr (lv : level) (cx : context) (e : expr) {struct e} : G expr :=
  match e with
  | EConversion _ e1 target => (* lines 579-611 *)
      let~ e1' := gan_expr lv cx e1 in
      let~ target' := gan_type target in
      let~ v := gvalue (expr_cv e1') in
      let~ t := gtype target' in
      if negb (is_convertible_to (av_type v) t) then gfail a_incompatible_types
      else
        let~ r := gor_unknown (value_evaluate_conversion v t) t in
        gret (EConversion (Some r) e1' target')
  | EIf _ lhs condition rhs => (* lines 613-665 *)
      let~ condition' := gan_expr lv cx condition in
      match expr_cv condition' with
      | None => gub (* line 623 *)
      | Some c =>
          if negb (ctype_eqb (av_type c) TBool) then gfail a_condition_not_bool
          else
            let~ evaluate_left :=
              (if is_constant cx then
                 let~ _ := gassert (is_known c) in
                 glift (fun e => e) (as_bool c)
               else gret true) in
            let left_context := if is_constant cx && negb evaluate_left then normal else cx in
            let right_context := if is_constant cx && evaluate_left then normal else cx in
            let~ lhs' := gan_expr lv left_context lhs in
            let~ rhs' := gan_expr lv right_context rhs in
            match expr_cv lhs', expr_cv rhs' with
            | Some l, Some r =>
                let~ t := glift a_type (check_if_expression (av_type l) (av_type c) (av_type r)) in
                let eval_result := value_evaluate_if_expression l c r in
                let~ _ :=
                  gassert (negb (is_constant cx)
                           || match eval_result with Err _ => false | _ => true end) in
                let~ v := gor_unknown eval_result t in
                gret (EIf (Some v) lhs' condition' rhs')
            | _, _ => gub (* line 652 *)
            end
      end
  | EBinary _ op lhs rhs => (* lines 667-726 *)
      let~ lhs' := gan_expr lv cx lhs in
      let left_value := expr_cv lhs' in
      let~ _ :=
        gassert (negb (is_constant cx)
                 || match left_value with Some v => is_known v | None => false end) in
      let~ cx' :=
        (match op with
         | logical_and | logical_or =>
             if is_constant cx then
               let~ l := gvalue left_value in
               if negb (ctype_eqb (av_type l) TBool) then gfail a_non_bool_logical
               else
                 let circuit_breaker := match op with logical_or => true | _ => false end in
                 let~ b := glift (fun e => e) (as_bool l) in
                 gret (if Bool.eqb b circuit_breaker then normal else cx)
             else gret cx
         | _ => gret cx
         end) in
      let~ rhs' := gan_expr lv cx' rhs in
      let right_value := expr_cv rhs' in
      let~ _ :=
        gassert (negb (is_constant cx')
                 || match right_value with Some v => is_known v | None => false end) in
      match left_value, right_value with
      | Some l, Some r =>
          let~ t := glift a_type (check_binary_operator (av_type l) op (av_type r)) in
          let eval_result := value_evaluate_binary_operator l op r in
          match eval_result, cx' with
          | Err e, constant => gfail (a_evaluation e)
          | _, _ =>
              let~ v := gor_unknown eval_result t in
              gret (EBinary (Some v) op lhs' rhs')
          end
      | _, _ => gub (* line 713 *)
      end
  | EPrefix _ op e1 => (* lines 728-752 *)
      let~ e1' := gan_expr lv cx e1 in
      let~ x := gvalue (expr_cv e1') in
      let~ t := glift a_type (check_unary_operator op (av_type x)) in
      let eval_result := value_evaluate_unary_operator op x in
      match eval_result, cx with
      | Err e, constant => gfail (a_evaluation e)
      | _, _ =>
          let~ v := gor_unknown eval_result t in
          gret (EPrefix (Some v) op e1')
      end
  | ECall _ name lk is_statement args => (* lines 754-975 *)
      let~ _ := gvalue lk in
      let~ (args', values) :=
        (fix gan_args (l : list expr) : G (list expr * list avalue) :=
           match l with
           | [] => gret ([], [])
           | a :: rest =>
               let~ a' := gan_expr lv cx a in
               let~ v := gvalue (expr_cv a') in
               let~ (rest', vs) := gan_args rest in
               gret (a' :: rest', v :: vs)
           end) args in
      let~ (lk', v) := gan_call lv cx lk values in
      gret (ECall (Some v) name (Some lk') is_statement args')
  | EId cv name lk generic =>
      match cv with
      | Some _ => gret e (* lines 983-989 *)
      | None =>
          let~ v := gan_id cx lk in
          gret (EId v name lk generic)
      end
  | ELiteral cv lit type =>
      match cv with
      | Some v => let~ _ := gassert (is_known v) in gret e (* lines 1074-1077 *)
      | None =>
          let~ v := gan_literal lit type in
          gret (ELiteral (Some v) lit type)
      end
  end
with gan_type (t : type_node) {struct t} : G type_node :=
  match t with
  | Type_Node (Some _) _ _ _ => gret t (* lines 208-210 *)
  | Type_Node None k None w => (* lines 211-214 *)
      let~ c := gtype t in
      gret (Type_Node (Some (unknown_of_type c)) k None w)
  | Type_Node None k (Some width) _ => (* lines 216-237 *)
      let~ width' := gan_expr for_constant_evaluation constant width in
      let~ v := gvalue (expr_cv width') in
      if negb (is_integer (av_type v)) then gfail a_width_not_integer
      else
        let~ n := glift (fun e => e) (as_int v) in
        if (n <=? 0) || (uint_max_width <? n) then gfail a_width_invalid
        else
          let~ c := gtype (Type_Node None k (Some width') (Some n)) in
          gret (Type_Node (Some (unknown_of_type c)) k (Some width') (Some n))
  end.

(** Statements (src/bms/analyze.cpp:240-577) inside of a function with the given return type, and global
    constants and static assertions; [in_loop]: some ancestor is a [While_Statement]. *)
Fixpoint gan_stmt (return_type : option type_node) (lv : level) (in_loop : bool) (s : stmt) {struct s}
  : G stmt :=
  match s with
  | SConst cv name self type init => (* lines 240-298 *)
      match cv with
      | Some _ => gret s
      | None =>
          match type with
          | None =>
              let~ init' := gan_expr for_constant_evaluation constant init in
              let~ v := gderef (expr_cv init') in
              let~ _ := gset_value self (Some v) in
              let~ _ := gassert (is_known v) in
              gret (SConst (Some v) name self None init')
          | Some t =>
              let~ t' := gan_type t in
              let~ init' := gan_expr for_constant_evaluation constant init in
              let~ tv := gvalue (type_cv t') in
              let~ v := gderef (expr_cv init') in
              if negb (is_convertible_to (av_type v) (av_type tv)) then gfail a_incompatible_types
              else
                let~ r := glift a_evaluation (value_evaluate_conversion v (av_type tv)) in
                let~ _ := gset_value self (Some r) in
                gret (SConst (Some r) name self (Some t') init')
          end
      end
  | SLet _ name self type init => (* lines 300-351 *)
      match type with
      | None =>
          let~ e := gvalue init in
          let~ e' := gan_expr lv normal e in
          let~ v := gvalue (expr_cv e') in
          let cv := Some (unknown_of_type (av_type v)) in
          let~ _ := gset_value self cv in
          gret (SLet cv name self None (Some e'))
      | Some t =>
          let~ t' := gan_type t in
          match init with
          | None =>
              let~ c := gtype t' in
              let cv := Some (unknown_of_type c) in
              let~ _ := gset_value self cv in
              gret (SLet cv name self (Some t') None)
          | Some e =>
              let~ e' := gan_expr lv normal e in
              let~ tv := gvalue (type_cv t') in
              let~ v := gderef (expr_cv e') in
              if negb (is_convertible_to (av_type v) (av_type tv)) then gfail a_incompatible_types
              else
                let~ c := gtype t' in
                let cv := Some (unknown_of_type c) in
                let~ _ := gset_value self cv in
                gret (SLet cv name self (Some t') (Some e'))
          end
      end
  | SStatic_Assert cv e => (* lines 353-391 *)
      match cv with
      | Some v => let~ _ := gassert (is_known v) in gret s
      | None =>
          let~ e' := gan_expr for_constant_evaluation constant e in
          let~ v := gvalue (expr_cv e') in
          let~ _ := gassert (is_known v) in
          if negb (ctype_eqb (av_type v) TBool) then gfail a_static_assert_expression_not_bool
          else
            let~ b := glift (fun e => e) (as_bool v) in
            if negb b then gfail a_static_assertion_failed
            else gret (SStatic_Assert (Some v) e')
      end
  | SIf _ condition if_block else_node => (* lines 393-424 *)
      let~ condition' := gan_expr lv normal condition in
      let~ c := gvalue (expr_cv condition') in
      if negb (ctype_eqb (av_type c) TBool) then gfail a_condition_not_bool
      else
        let~ if_block' := gan_stmt return_type lv in_loop if_block in
        let~ else_node' :=
          (match else_node with
           | None => gret None
           | Some e => let~ e' := gan_stmt return_type lv in_loop e in gret (Some e')
           end) in
        gret (SIf (Some av_Void) condition' if_block' else_node')
  | SWhile _ condition block => (* lines 426-452 *)
      let~ condition' := gan_expr lv normal condition in
      let~ c := gvalue (expr_cv condition') in
      if negb (ctype_eqb (av_type c) TBool) then gfail a_condition_not_bool
      else
        let~ block' := gan_stmt return_type lv true block in
        gret (SWhile (Some av_Void) condition' block')
  | SControl _ type e => (* lines 454-506 *)
      let~ function_return := gvalue return_type in
      match type with
      | ctl_break | ctl_continue =>
          if negb in_loop then
            gfail (match type with ctl_break => a_break_outside_loop | _ => a_continue_outside_loop end)
          else gret (SControl (Some av_Void) type e)
      | ctl_return =>
          let~ rt := gtype function_return in
          match e with
          | None =>
              if negb (ctype_eqb rt TVoid) then gfail a_empty_return_in_non_void_function
              else gret (SControl (Some av_Void) type None)
          | Some e1 =>
              let~ e1' := gan_expr lv normal e1 in
              let~ v := gvalue (expr_cv e1') in
              if negb (is_convertible_to (av_type v) rt) then gfail a_incompatible_types
              else
                let~ r := gor_unknown (value_evaluate_conversion v rt) rt in
                gret (SControl (Some r) type (Some e1'))
          end
      end
  | SAssign _ name lk e => (* lines 508-561 *)
      let~ target := gvalue lk in
      match target with
      | LParameter _ => gfail a_assigning_parameter
      | LBuiltin _ => gabort
      | LNode DFunction _ => gfail a_assigning_function
      | LNode DConst _ => gfail a_assigning_const
      | LNode DWidth _ => gabort
      | LNode DLet n =>
          let~ e' := gan_expr lv normal e in
          let~ v := gvalue (expr_cv e') in
          let~ st := gget in
          let~ dest := gvalue (st_values st n) in
          if negb (is_convertible_to (av_type v) (av_type dest)) then gfail a_incompatible_types
          else
            let~ r := gor_unknown (value_evaluate_conversion v (av_type dest)) (av_type dest) in
            gret (SAssign (Some r) name lk e')
      end
  | SBlock _ children => (* lines 563-577 *)
      let~ children' :=
        (fix gan_children (l : list stmt) : G (list stmt) :=
           match l with
           | [] => gret []
           | s1 :: rest =>
               let~ s1' := gan_stmt return_type lv in_loop s1 in
               let~ rest' := gan_children rest in
               gret (s1' :: rest')
           end) children in
      gret (SBlock (Some av_Void) children')
  | SExpr e =>
      let~ e' := gan_expr lv normal e in
      gret (SExpr e')
  end.

(** The parameters of a function (src/bms/analyze.cpp:126-132). *)
Fixpoint gan_parameters (l : list parameter) : G (list parameter) :=
  match l with
  | [] => gret []
  | p :: rest =>
      let~ t := gan_type (p_type p) in
      let~ _ := gset_value (p_self p) (type_cv t) in
      let~ rest' := gan_parameters rest in
      gret (Param (p_name p) (p_self p) t :: rest')
  end.

(** The instances of the generic function [n] (src/bms/analyze.cpp:116-121); [count] is how many there are. *)
Fixpoint gan_instances (n : positive) (lv : level) (count : nat) (l : list instance) : G unit :=
  match l with
  | [] => gret tt
  | i :: rest =>
      let~ _ := callee (f_self (i_function i)) lv in
      fun g => if Nat.eqb (length (g_instances g n)) count then gan_instances n lv count rest g else Some UB
  end.

(** Functions (src/bms/analyze.cpp:105-202). *)
Definition gan_function_body (n : positive) (lv : level) : G unit :=
  let~ f := gget_function n in
  let~ _ := gassert (negb (level_index lv =? 0)) in
  if level_leb lv (f_level f) then gret tt
  else if f_generic f then (* lines 115-123 *)
    fun g => gan_instances n lv (length (g_instances g n)) (g_instances g n) g
  else
    let~ params := gan_parameters (f_params f) in
    let~ return_type := gan_type (f_return f) in
    let~ _ := gset_function n (with_signature params return_type) in
    let~ _ := gpush_function n in
    let~ _ :=
      (match f_requires f with
       | None => gret tt
       | Some e =>
           match expr_cv e with
           | Some _ => gret tt
           | None =>
               let~ e' := gan_expr for_constant_evaluation constant e in
               let~ _ := gset_function n (with_requires e') in
               let~ v := gvalue (expr_cv e') in
               let~ _ := gassert (is_known v) in
               if negb (ctype_eqb (av_type v) TBool) then gfail a_requires_clause_not_bool
               else
                 let~ b := glift (fun e => e) (as_bool v) in
                 if negb b then gfail a_requires_clause_not_satisfied else gret tt
           end
       end) in
    let~ f := gget_function n in
    let~ _ :=
      (if level_leb shallow (f_level f) then gret tt else gset_function n (with_level shallow)) in
    let~ _ :=
      (if level_leb full lv then
         let~ f := gget_function n in
         let~ body := gan_stmt (Some (f_return f)) lv false (f_body f) in
         gset_function n (with_body body)
       else gret tt) in
    let~ _ :=
      (if level_leb for_constant_evaluation lv then
         let~ f := gget_function n in
         let~ st := gget in
         let~ code := glift a_codegen (gen_function (info_of (st_functions st)) f) in
         let '(m, address) := add_instructions (st_vm st) code in
         let~ _ := gset_vm m in
         gset_function n (with_address address)
       else gret tt) in
    let~ _ := gset_function n (with_result (type_cv return_type) lv) in
    gpop_function.

End Generic.

(** The recursion through calls and instances (src/bms/analyze.cpp:117, 907), limited by [fuel]. *)
Fixpoint gan_function (run_fuel fuel : nat) (n : positive) (lv : level) : G unit :=
  match fuel with
  | O => fun _ => None
  | S fuel' => gan_function_body (gan_function run_fuel fuel') run_fuel n lv
  end.

(** The program (src/bms/analyze.cpp:89-103). *)
Fixpoint gan_items (run_fuel fuel : nat) (l : list item) : G (list item) :=
  match l with
  | [] => gret []
  | Item_Function n :: rest =>
      let~ _ := gan_function run_fuel fuel n full in
      let~ rest' := gan_items run_fuel fuel rest in
      gret (Item_Function n :: rest')
  | Item_Statement s :: rest =>
      let~ s' := gan_stmt (gan_function run_fuel fuel) run_fuel None full false s in
      let~ rest' := gan_items run_fuel fuel rest in
      gret (Item_Statement s' :: rest')
  end.

(** [analyze_semantics] (src/bms/analyze.cpp:1108-1113) of a program whose functions are [table] and whose
    nodes have not been analysed before; identities from [next] on are not in use. *)
Definition analyze_generic (run_fuel fuel : nat) (table : positive -> option func) (next : positive) (l : list item)
  : option (outcome generic_error (list item * gstate)) :=
  gan_items run_fuel fuel l (GState (State table (fun _ => None) vm_new []) (fun _ => []) (fun _ => None) next).
