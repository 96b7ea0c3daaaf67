(** The virtual machine that evaluates constant expressions.
    Models src/bms/vm/instructions.hpp, src/bms/vm/execution_error.hpp, src/bms/vm/vm.hpp and
    src/bms/vm/vm.cpp. Debug information, which only decorates errors, is not modelled. *)
From Coq Require Import ZArith List Bool.
From Verif Require Import Prelude Types Ops LinMap.
Import ListNotations.
Open Scope Z_scope.

(** [Instruction] (src/bms/vm/instructions.hpp:24-138). Offsets are [Signed_Size], addresses [Size]
    (src/common/config.hpp:58-60), both 64 bits wide. *)
Inductive instr : Type :=
| ILoad (source : key)
| IStore (target : key)
| IPush (value : cvalue)
| IPop
| IRelative_Jump (offset : Z)
| IRelative_Jump_If (offset : Z) (expected : bool)
| IBreak
| IContinue
| IReturn
| IConvert (type : ctype)
| IUnary_Operate (op : expr_kind)
| IBinary_Operate (op : expr_kind)
| ICall (address : Z)
| IBuiltin_Call (function : builtin).

(** [Comparison_Failure] (src/bms/comparison_failure.hpp:12-15). *)
Record comparison_failure : Type :=
  CmpFailure { cf_left : cvalue; cf_right : cvalue; cf_op : expr_kind }.

(** [Execution_Error_Code] (src/bms/vm/execution_error.hpp:12-22); [evaluation] is joined with the field
    [evaluation_error] (lines 44-45, 58-63), which is meaningful in that case only. *)
Inductive exec_code : Type :=
| x_load_uninitialized
| x_pop
| x_pop_call
| x_evaluation (e : eval_error)
| x_jump_out_of_program
| x_jump_if_not_bool
| x_symbolic_jump
| x_call_out_of_program
| x_infinite_loop.

(** [Virtual_Machine] (src/bms/vm/vm.hpp:18-25). [vm_stack] holds the top of [m_stack] first; [vm_counter]
    is a [Size], a number in [0, 2^64). *)
Record vm : Type := VM {
  vm_instructions : list instr;
  vm_frames : linmap;
  vm_stack : list cvalue;
  vm_counter : Z;
  vm_comparison : option comparison_failure
}.

(** [Execution_Error] (src/bms/vm/execution_error.hpp:41-63), together with the machine as the failed
    cycle leaves it behind. *)
Record exec_error : Type := ExecError {
  ee_code : exec_code;
  ee_comparison : option comparison_failure;
  ee_machine : vm
}.

(** [m_instructions.size()] (src/bms/vm/vm.hpp:85-88). *)
Definition instruction_count (prog : list instr) : Z := Z.of_nat (length prog).

(** Number of values of [Size] (src/common/config.hpp:58). *)
Definition two64 : Z := 2 ^ 64.
(** Conversion to [Size] (src/common/config.hpp:58). *)
Definition to_size (z : Z) : Z := z mod two64.
(** Conversion of a [Size] to [Signed_Size] (src/common/config.hpp:60). *)
Definition to_signed_size (z : Z) : Z :=
  let u := z mod two64 in if u <? 2 ^ 63 then u else u - two64.
(** The result of [Signed_Size] arithmetic: overflow is undefined behaviour (src/common/config.hpp:60). *)
Definition signed_size_result {E} (z : Z) : outcome E Z :=
  if (- 2 ^ 63 <=? z) && (z <? 2 ^ 63) then Ok z else UB.

(** The instruction at an index, if the index is inside the program (src/bms/vm/vm.cpp:152, 211). *)
Definition fetch (prog : list instr) (counter : Z) : option instr :=
  if (0 <=? counter) && (counter <? instruction_count prog)
  then nth_error prog (Z.to_nat counter) else None.

(** Assignments to the members of [self] (src/bms/vm/vm.cpp:18-206). *)
Definition set_counter (m : vm) (c : Z) : vm :=
  VM (vm_instructions m) (vm_frames m) (vm_stack m) c (vm_comparison m).
Definition set_stack (m : vm) (s : list cvalue) : vm := (* src/bms/vm/vm.cpp:26, 37, 45, 55, 77 *)
  VM (vm_instructions m) (vm_frames m) s (vm_counter m) (vm_comparison m).
Definition set_frames (m : vm) (f : linmap) : vm := (* src/bms/vm/vm.cpp:38, 94, 169 *)
  VM (vm_instructions m) f (vm_stack m) (vm_counter m) (vm_comparison m).
Definition set_comparison (m : vm) (c : option comparison_failure) : vm := (* src/bms/vm/vm.cpp:154 *)
  VM (vm_instructions m) (vm_frames m) (vm_stack m) (vm_counter m) c.

(** [++self.m_instruction_counter] (e.g. src/bms/vm/vm.cpp:27). *)
Definition advance (m : vm) : vm := set_counter m (to_size (vm_counter m + 1)).

(** [return Execution_Error { code, debug_info }] (e.g. src/bms/vm/vm.cpp:24). *)
Definition fail (m : vm) (c : exec_code) : outcome exec_error vm := Err (ExecError c None m).

(** [if (!result) return Execution_Error { result.error(), ... }] (src/bms/vm/vm.cpp:111-113, 128-130,
    147-149): [m] is the machine after the operands have been popped. *)
Definition evaluated (m : vm) (r : outcome eval_error cvalue) (k : cvalue -> outcome exec_error vm)
  : outcome exec_error vm :=
  match r with
  | Ok v => k v
  | Err e => fail m (x_evaluation e)
  | Abort => Abort
  | UB => UB
  end.

(** [Signed_Size(m_instruction_counter) + offset + 1] (src/bms/vm/vm.cpp:62, 67, 81). *)
Definition jump_target {E} (m : vm) (offset : Z) : outcome E Z :=
  let* s := signed_size_result (to_signed_size (vm_counter m) + offset) in
  signed_size_result (s + 1).

(** [holds a Builtin_Call of assert] (src/bms/vm/vm.cpp:150-153). *)
Definition next_is_assert (m : vm) : bool :=
  if to_size (vm_counter m + 1) <? instruction_count (vm_instructions m) then
    match fetch (vm_instructions m) (to_size (vm_counter m + 1)) with
    | Some (IBuiltin_Call builtin_assert) => true
    | _ => false
    end
  else false.

(** [Cycle_Impl::operator()] (src/bms/vm/vm.cpp:17-206). *)
Definition execute (m : vm) (i : instr) : outcome exec_error vm :=
  match i with
  | ILoad source => (* lines 20-29 *)
      let* pos := lm_find source (vm_frames m) in
      match pos with
      | None => fail m x_load_uninitialized
      | Some n =>
          match lm_value (vm_frames m) n with
          | Some v => Ok (advance (set_stack m (v :: vm_stack m)))
          | None => UB
          end
      end
  | IStore target => (* lines 31-41 *)
      match vm_stack m with
      | [] => fail m x_pop
      | value :: rest =>
          let* f := lm_assign target value (vm_frames m) in
          Ok (advance (set_frames (set_stack m rest) f))
      end
  | IPush value => (* lines 43-48 *)
      Ok (advance (set_stack m (value :: vm_stack m)))
  | IPop => (* lines 50-58 *)
      match vm_stack m with
      | [] => fail m x_pop
      | _ :: rest => Ok (advance (set_stack m rest))
      end
  | IRelative_Jump offset => (* lines 60-69 *)
      let* target := jump_target m offset in
      if instruction_count (vm_instructions m) <=? target then fail m x_jump_out_of_program
      else Ok (set_counter m (to_size target))
  | IRelative_Jump_If offset expected => (* lines 71-90 *)
      match vm_stack m with
      | [] => fail m x_pop
      | actual :: rest =>
          let m' := set_stack m rest in
          if negb (ctype_eqb (cv_type actual) TBool) then fail m' x_jump_if_not_bool
          else
            let* target := jump_target m offset in
            if instruction_count (vm_instructions m) <=? target then fail m' x_jump_out_of_program
            else
              let taken := Bool.eqb expected (negb (cv_int actual =? 0)) in
              let* next :=
                signed_size_result
                  (to_signed_size (to_size (vm_counter m + 1)) + (if taken then offset else 0)) in
              Ok (set_counter m' (to_size next))
      end
  | IReturn => (* lines 92-100 *)
      match lm_pop_frame (vm_frames m) with
      | None => fail m x_pop_call
      | Some (return_address, f) =>
          Ok (set_counter (set_frames m f) (to_size (cv_int return_address)))
      end
  | IConvert type => (* lines 102-117 *)
      match vm_stack m with
      | [] => fail m x_pop
      | operand :: rest =>
          let m' := set_stack m rest in
          evaluated m' (evaluate_conversion operand type)
            (fun v => Ok (advance (set_stack m (v :: rest))))
      end
  | IUnary_Operate op => (* lines 119-134 *)
      match vm_stack m with
      | [] => fail m x_pop
      | operand :: rest =>
          let m' := set_stack m rest in
          evaluated m' (evaluate_unary_operator op operand)
            (fun v => Ok (advance (set_stack m (v :: rest))))
      end
  | IBinary_Operate op => (* lines 136-161 *)
      match vm_stack m with
      | rhs :: lhs :: rest =>
          let m' := set_stack m rest in
          evaluated m' (evaluate_binary_operator lhs op rhs)
            (fun v =>
               let m'' := if next_is_assert m then set_comparison m (Some (CmpFailure lhs rhs op))
                          else m in
               Ok (advance (set_stack m'' (v :: rest))))
      | _ => fail m x_pop
      end
  | ICall address => (* lines 163-172 *)
      if instruction_count (vm_instructions m) <? address then fail m x_call_out_of_program
      else
        let return_address := CV TInt (to_size (vm_counter m + 1)) in
        Ok (set_counter (set_frames m (lm_push_frame return_address (vm_frames m))) address)
  | IBuiltin_Call function => (* lines 174-195 *)
      let params := builtin_parameter_count function in
      if Nat.ltb (length (vm_stack m)) params then fail m x_pop
      else
        match evaluate_builtin_function function (rev (firstn params (vm_stack m))) with
        | Err e =>
            Err (ExecError (x_evaluation e)
                   (match function with builtin_assert => vm_comparison m end) m)
        | Ok v => Ok (advance (set_stack m (v :: skipn params (vm_stack m))))
        | Abort => Abort
        | UB => UB
        end
  | IBreak | IContinue => fail m x_symbolic_jump (* lines 197-205 *)
  end.

(** [Virtual_Machine::cycle] (src/bms/vm/vm.cpp:208-220); [std::vector::at] throws for an index outside
    of the program. *)
Definition cycle (m : vm) : outcome exec_error vm :=
  match fetch (vm_instructions m) (vm_counter m) with
  | None => Abort
  | Some next =>
      let* m' := execute m next in
      if vm_counter m =? vm_counter m' then fail m' x_infinite_loop else Ok m'
  end.

(** A newly constructed machine (src/bms/vm/vm.hpp:28-34). *)
Definition vm_new : vm := VM [] lm_clear [] 0 None.

(** [add_instructions] (src/bms/vm/vm.hpp:51-56). *)
Definition add_instructions (m : vm) (code : list instr) : vm * Z :=
  (VM (vm_instructions m ++ code) (vm_frames m) (vm_stack m) (vm_counter m) (vm_comparison m),
   instruction_count (vm_instructions m)).

(** [push] (src/bms/vm/vm.hpp:63-66). *)
Definition vm_push (m : vm) (v : cvalue) : vm := set_stack m (v :: vm_stack m).

(** [pop] (src/bms/vm/vm.hpp:70-75); [back()] of an empty vector is undefined behaviour. *)
Definition vm_pop {E} (m : vm) : outcome E (cvalue * vm) :=
  match vm_stack m with
  | [] => UB
  | v :: rest => Ok (v, set_stack m rest)
  end.

(** [jump_to] (src/bms/vm/vm.hpp:79-83). *)
Definition vm_jump_to {E} (m : vm) (address : Z) : outcome E vm :=
  assert_then (address <? instruction_count (vm_instructions m)) (Ok (set_counter m address)).

(** [reset] (src/bms/vm/vm.hpp:95-100): the comparison failure is not reset. *)
Definition vm_reset (m : vm) : vm := VM (vm_instructions m) lm_clear [] 0 (vm_comparison m).

(** The loop [while ((cycle_result = vm.cycle())) { }] (src/bms/analyze.cpp:954-955), with fuel:
    [None] means that the fuel did not suffice. *)
Fixpoint run (fuel : nat) (m : vm) : option (outcome exec_error vm) :=
  match fuel with
  | O => None
  | S n =>
      match cycle m with
      | Ok m' => run n m'
      | stopped => Some stopped
      end
  end.
