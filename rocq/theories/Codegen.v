(** Generation of code for the virtual machine.  Models src/bms/vm/codegen.cpp.
    The C++ code appends to the vector [out]; here every function returns the instructions it appends.
    Everything appended by an attempt that fails is removed again (lines 95-96, 161-164, 204-207,
    300-306, 337-340, 381-384, 461-469), so an error carries no instructions. *)
From Coq Require Import ZArith List Bool.
From Verif Require Import Prelude Types Ops Text Tables AbsOps LinMap VM Ast.
Import ListNotations.
Open Scope Z_scope.

(** The only analysis error of code generation (src/bms/vm/codegen.cpp:482-484). *)
Inductive codegen_error : Type := codegen_call_to_unanalyzed.

(** What the code generator reads through a pointer to a [Function] node: the [const_value]s of the
    parameter types (src/bms/vm/codegen.cpp:18-22), [was_analyzed()] and [vm_address] (480-481). *)
Record function_info : Type := FunctionInfo {
  fi_parameters : list (option avalue);
  fi_analyzed : bool;
  fi_address : option Z
}.

(** Following a pointer to a function node. *)
Definition functions : Type := positive -> option function_info.

(** [builtin_parameter_types] (src/bms/evaluation/builtin_function.hpp:51-58). *)
Definition builtin_parameter_types (f : builtin) : list ctype :=
  match f with builtin_assert => [TBool] end.

(** [get_parameter_type] (src/bms/vm/codegen.cpp:15-32). *)
Definition get_parameter_type {E} (funs : functions) (l : lookup) (i : nat) : outcome E ctype :=
  match l with
  | LNode DFunction n =>
      match funs n with
      | Some f =>
          match nth_error (fi_parameters f) i with
          | Some (Some v) => Ok (av_type v)
          | _ => Abort
          end
      | None => UB (* a dangling pointer *)
      end
  | LBuiltin f => value_of (nth_error (builtin_parameter_types f) i)
  | _ => Abort
  end.

(** [to_target] (src/bms/vm/codegen.cpp:34-43). *)
Definition to_target {E} (l : lookup) : outcome E key :=
  match l with
  | LNode _ n => Ok (Some n)
  | LParameter n => Ok (Some n)
  | LBuiltin _ => Abort
  end.

(** [if (node.const_value()->is_known()) push; else ...] after the assertion that there is a value
    (e.g. src/bms/vm/codegen.cpp:332-336). *)
Definition push_known {E} (cv : option avalue) (k : outcome E (list instr)) : outcome E (list instr) :=
  match cv with
  | None => Abort
  | Some v =>
      if is_known v then let* c := concrete_value v in Ok [IPush c] else k
  end.

(** [Signed_Size(out.size() - size_before)] for the instructions in between. *)
Definition size (code : list instr) : Z := instruction_count code.

(** The last part of the code of a call (src/bms/vm/codegen.cpp:478-502). *)
Definition gen_invoke (funs : functions) (lk : option lookup) (is_statement : bool)
  : outcome codegen_error (list instr) :=
  let* call :=
    (match lk with
     | Some (LNode DFunction n) =>
         match funs n with
         | None => UB
         | Some f =>
             match fi_analyzed f, fi_address f with
             | true, Some a => Ok [ICall a]
             | _, _ => Err codegen_call_to_unanalyzed
             end
         end
     | Some (LNode _ _) => Ok []
     | Some (LBuiltin f) => Ok [IBuiltin_Call f]
     | _ => Abort
     end) in
  Ok (call ++ (if is_statement then [IPop] else [])).

(** [generate_code] for expressions (src/bms/vm/codegen.cpp:310-523). *)
Fixpoint gen_expr (funs : functions) (e : expr) : outcome codegen_error (list instr) :=
  match e with
  | EConversion cv e1 target => (* lines 310-327 *)
      push_known cv
        (let* init := gen_expr funs e1 in
         let* t := concrete_type_value target in
         Ok (init ++ [IConvert t]))
  | EIf cv lhs condition rhs => (* lines 329-370 *)
      push_known cv
        (let* c := gen_expr funs condition in
         let* l := gen_expr funs lhs in
         let* r := gen_expr funs rhs in
         Ok (c ++ [IRelative_Jump_If (size l + 1) false] ++ l ++ [IRelative_Jump (size r)] ++ r))
  | EBinary cv op lhs rhs => (* lines 372-431 *)
      push_known cv
        (let* l := gen_expr funs lhs in
         match op with
         | logical_and | logical_or =>
             let circuit_breaker := expr_kind_eqb op logical_or in
             let* r := gen_expr funs rhs in
             Ok (l ++ [IRelative_Jump_If (size r + 1) circuit_breaker] ++ r
                 ++ [IRelative_Jump 1; IPush (CV TBool (if circuit_breaker then 1 else 0))])
         | _ =>
             let* r := gen_expr funs rhs in
             Ok (l ++ r ++ [IBinary_Operate op])
         end)
  | EPrefix cv op e1 => (* lines 433-448 *)
      push_known cv
        (let* init := gen_expr funs e1 in
         Ok (init ++ [IUnary_Operate op]))
  | ECall cv _ lk is_statement args => (* lines 450-503 *)
      match cv with
      | None => Abort
      | Some v =>
          if is_known v then
            if is_statement then Ok []
            else let* c := concrete_value v in Ok [IPush c]
          else
            let* code :=
              (fix gen_args (i : nat) (l : list expr) : outcome codegen_error (list instr) :=
                 match l with
                 | [] => Ok []
                 | a :: rest =>
                     let* arg_code := gen_expr funs a in
                     let* argument := value_of (expr_cv a) in
                     let* callee := value_of lk in
                     let* parameter_type := get_parameter_type funs callee i in
                     let* rest_code := gen_args (S i) rest in
                     Ok (arg_code
                         ++ (if ctype_eqb (av_type argument) parameter_type then []
                             else [IConvert parameter_type])
                         ++ rest_code)
                 end) O args in
            let* invoke := gen_invoke funs lk is_statement in
            Ok (code ++ invoke)
      end
  | EId cv _ lk _ => (* lines 505-514 *)
      push_known cv
        (let* l := value_of lk in
         let* target := to_target l in
         Ok [ILoad target])
  | ELiteral cv _ _ => (* lines 516-523 *)
      push_known cv Abort
  end.

(** The loop that replaces symbolic jumps (src/bms/vm/codegen.cpp:226-235). [before] is the number of
    instructions from the start of the loop up to here; [size code] is the number of instructions of the
    block from here on. *)
Fixpoint resolve_jumps (before : Z) (code : list instr) : list instr :=
  match code with
  | [] => []
  | i :: rest =>
      (match i with
       | IBreak => IRelative_Jump (size code)
       | IContinue => IRelative_Jump (- before - 1)
       | _ => i
       end) :: resolve_jumps (before + 1) rest
  end.

(** [generate_code] for statements (src/bms/vm/codegen.cpp:129-308); [return_type] is [m_return_type]. *)
Fixpoint gen_stmt (funs : functions) (return_type : ctype) (s : stmt)
  : outcome codegen_error (list instr) :=
  match s with
  | SConst cv _ _ _ _ => (* lines 129-135 *)
      let* _ := value_of cv in Ok []
  | SLet cv _ self _ init => (* lines 137-149 *)
      let* _ := value_of cv in
      match init with
      | None => Ok []
      | Some e =>
          let* code := gen_expr funs e in
          Ok (code ++ [IStore (Some self)])
      end
  | SStatic_Assert cv _ => (* lines 151-156 *)
      let* _ := value_of cv in Ok []
  | SIf _ condition if_block else_node => (* lines 158-198 *)
      let* c := gen_expr funs condition in
      let* b := gen_stmt funs return_type if_block in
      match else_node with
      | None => Ok (c ++ [IRelative_Jump_If (size b) false] ++ b)
      | Some e =>
          let* f := gen_stmt funs return_type e in
          Ok (c ++ [IRelative_Jump_If (size b + 1) false] ++ b ++ [IRelative_Jump (size f)] ++ f)
      end
  | SWhile _ condition block => (* lines 200-240 *)
      let* c := gen_expr funs condition in
      let* b := gen_stmt funs return_type block in
      let jump_past := IRelative_Jump_If (size b + 1) false in
      Ok (c ++ [jump_past] ++ resolve_jumps (size c + 1) b
          ++ [IRelative_Jump (- (size c + 1 + size b + 1))])
  | SControl cv type e => (* lines 242-282 *)
      let* v := value_of cv in
      match type with
      | ctl_break => Ok [IBreak]
      | ctl_continue => Ok [IContinue]
      | ctl_return =>
          assert_then (ctype_eqb (av_type v) return_type)
          (if is_known v then
             let* c := concrete_value v in Ok [IPush c; IReturn]
           else
             let* e1 := value_of e in
             let* code := gen_expr funs e1 in
             let* expression := value_of (expr_cv e1) in
             Ok (code ++ (if ctype_eqb (av_type expression) return_type then []
                          else [IConvert return_type])
                 ++ [IReturn]))
      end
  | SAssign cv _ lk e => (* lines 284-293 *)
      let* _ := value_of cv in
      let* code := gen_expr funs e in
      let* l := value_of lk in
      let* target := to_target l in
      Ok (code ++ [IStore target])
  | SBlock _ children => (* lines 295-308 *)
      (fix gen_children (l : list stmt) : outcome codegen_error (list instr) :=
         match l with
         | [] => Ok []
         | s1 :: rest =>
             let* code := gen_stmt funs return_type s1 in
             let* rest_code := gen_children rest in
             Ok (code ++ rest_code)
         end) children
  | SExpr e => gen_expr funs e
  end.

(** The lambda [returns_unconditionally] (src/bms/vm/codegen.cpp:104-113): the children in reverse order.
    The assertion fails for a [break] or [continue]. *)
Fixpoint has_return {E} (reversed : list stmt) : outcome E bool :=
  match reversed with
  | [] => Ok false
  | SControl _ ctl_return _ :: _ => Ok true
  | SControl _ _ _ :: _ => Abort
  | _ :: rest => has_return rest
  end.

(** [generate_code] for a function (src/bms/vm/codegen.cpp:74-121, 528-535). *)
Definition gen_function (funs : functions) (f : func) : outcome codegen_error (list instr) :=
  let stores := map (fun p => IStore (Some (p_self p))) (rev (f_params f)) in
  let* _ := value_of (type_cv (f_return f)) in
  let* return_type := concrete_type_value (f_return f) in
  match f_body f with
  | SBlock _ children =>
      let* body := gen_stmt funs return_type (f_body f) in
      match node_type (f_return f) with
      | tt_Void =>
          let* returns := has_return (rev children) in
          Ok (stores ++ body ++ (if returns then [] else [IPush cv_Void; IReturn]))
      | _ => Ok (stores ++ body)
      end
  | _ => Abort (* get<Block_Statement> of another alternative throws *)
  end.
