(** The documented effect of every instruction (comments in src/bms/vm/instructions.hpp), on an abstract
    machine: a program counter, a stack of values, the variables of the running function, and the
    variables and return addresses of its callers. *)
From Coq Require Import ZArith List Bool.
From Verif Require Import Prelude Types Ops LinMap LinMapSpec LinMapProofs VM.
Import ListNotations.
Open Scope Z_scope.

Record machine : Type := Machine {
  a_stack : list cvalue;
  a_vars : env;
  a_callers : list (cvalue * env);
  a_pc : Z
}.

(** The abstract machine of a state of the virtual machine. *)
Definition abs (m : vm) : machine :=
  Machine (vm_stack m) (current (vm_frames m)) (saved (vm_frames m)) (vm_counter m).

(** Equal up to pointwise equal variables. *)
Definition same (a b : machine) : Prop :=
  a_stack a = a_stack b /\ (forall p, a_vars a p = a_vars b p)
  /\ frames_eq (a_callers a) (a_callers b) /\ a_pc a = a_pc b.

(** [effect n i a b]: in a program of [n] instructions, [i] takes [a] to [b]. *)
Inductive effect (n : Z) : instr -> machine -> machine -> Prop :=
| eff_load : forall p v s f cs pc, f p = Some v ->
    effect n (ILoad (Some p)) (Machine s f cs pc) (Machine (v :: s) f cs (pc + 1))
| eff_store : forall p v s f cs pc,
    effect n (IStore (Some p)) (Machine (v :: s) f cs pc) (Machine s (update f p v) cs (pc + 1))
| eff_push : forall v s f cs pc,
    effect n (IPush v) (Machine s f cs pc) (Machine (v :: s) f cs (pc + 1))
| eff_pop : forall v s f cs pc,
    effect n IPop (Machine (v :: s) f cs pc) (Machine s f cs (pc + 1))
| eff_jump : forall o s f cs pc, 0 <= pc + 1 + o < n ->
    effect n (IRelative_Jump o) (Machine s f cs pc) (Machine s f cs (pc + 1 + o))
| eff_jump_if : forall o (b c : bool) s f cs pc, 0 <= pc + 1 + o < n ->
    effect n (IRelative_Jump_If o b) (Machine (CV TBool (if c then 1 else 0) :: s) f cs pc)
      (Machine s f cs (if Bool.eqb b c then pc + 1 + o else pc + 1))
| eff_return : forall r f' cs s f pc, 0 <= cv_int r < 2 ^ 64 ->
    effect n IReturn (Machine s f ((r, f') :: cs) pc) (Machine s f' cs (cv_int r))
| eff_convert : forall t v w s f cs pc, evaluate_conversion v t = Ok w ->
    effect n (IConvert t) (Machine (v :: s) f cs pc) (Machine (w :: s) f cs (pc + 1))
| eff_unary : forall op v w s f cs pc, evaluate_unary_operator op v = Ok w ->
    effect n (IUnary_Operate op) (Machine (v :: s) f cs pc) (Machine (w :: s) f cs (pc + 1))
| eff_binary : forall op x y w s f cs pc, evaluate_binary_operator x op y = Ok w ->
    effect n (IBinary_Operate op) (Machine (y :: x :: s) f cs pc) (Machine (w :: s) f cs (pc + 1))
| eff_call : forall address s f cs pc, 0 <= address <= n ->
    effect n (ICall address) (Machine s f cs pc)
      (Machine s empty_env ((CV TInt (pc + 1), f) :: cs) address)
| eff_assert : forall s f cs pc,
    effect n (IBuiltin_Call builtin_assert) (Machine (cv_True :: s) f cs pc)
      (Machine (cv_Void :: s) f cs (pc + 1)).

(** [faults n i a c]: [i] reports the error [c]. *)
Inductive faults (n : Z) : instr -> machine -> exec_code -> Prop :=
| flt_load : forall p s f cs pc, f p = None ->
    faults n (ILoad (Some p)) (Machine s f cs pc) x_load_uninitialized
| flt_empty : forall i f cs pc,
    match i with
    | IStore _ | IPop | IRelative_Jump_If _ _ | IConvert _ | IUnary_Operate _
    | IBinary_Operate _ | IBuiltin_Call _ => True
    | _ => False
    end ->
    faults n i (Machine [] f cs pc) x_pop
| flt_one : forall op v f cs pc, faults n (IBinary_Operate op) (Machine [v] f cs pc) x_pop
| flt_jump : forall o s f cs pc, n <= pc + 1 + o ->
    faults n (IRelative_Jump o) (Machine s f cs pc) x_jump_out_of_program
| flt_jump_if : forall o b x s f cs pc, n <= pc + 1 + o ->
    faults n (IRelative_Jump_If o b) (Machine (CV TBool x :: s) f cs pc) x_jump_out_of_program
| flt_not_bool : forall o b v s f cs pc, cv_type v <> TBool ->
    faults n (IRelative_Jump_If o b) (Machine (v :: s) f cs pc) x_jump_if_not_bool
| flt_symbolic : forall i a, i = IBreak \/ i = IContinue -> faults n i a x_symbolic_jump
| flt_return : forall s f pc, faults n IReturn (Machine s f [] pc) x_pop_call
| flt_convert : forall t v e s f cs pc, evaluate_conversion v t = Err e ->
    faults n (IConvert t) (Machine (v :: s) f cs pc) (x_evaluation e)
| flt_unary : forall op v e s f cs pc, evaluate_unary_operator op v = Err e ->
    faults n (IUnary_Operate op) (Machine (v :: s) f cs pc) (x_evaluation e)
| flt_binary : forall op x y e s f cs pc, evaluate_binary_operator x op y = Err e ->
    faults n (IBinary_Operate op) (Machine (y :: x :: s) f cs pc) (x_evaluation e)
| flt_call : forall address s f cs pc, n < address ->
    faults n (ICall address) (Machine s f cs pc) x_call_out_of_program
| flt_assert : forall v s f cs pc, cv_type v = TBool -> cv_int v <> 1 ->
    faults n (IBuiltin_Call builtin_assert) (Machine (v :: s) f cs pc) (x_evaluation assertion_fail)
| flt_assert_type : forall v s f cs pc, cv_type v <> TBool ->
    faults n (IBuiltin_Call builtin_assert) (Machine (v :: s) f cs pc) (x_evaluation type_error).

(** The situations in which the C++ code neither advances nor reports an error. *)
Inductive crashes (n : Z) : instr -> machine -> Prop :=
| crash_null : forall i a, i = ILoad None \/ (i = IStore None /\ a_stack a <> []) -> crashes n i a
| crash_convert : forall t v s f cs pc, ~ defined (evaluate_conversion v t) ->
    crashes n (IConvert t) (Machine (v :: s) f cs pc)
| crash_unary : forall op v s f cs pc, ~ defined (evaluate_unary_operator op v) ->
    crashes n (IUnary_Operate op) (Machine (v :: s) f cs pc)
| crash_binary : forall op x y s f cs pc, ~ defined (evaluate_binary_operator x op y) ->
    crashes n (IBinary_Operate op) (Machine (y :: x :: s) f cs pc).

(** A jump whose target lies before the start of the program: the code does not test for it. *)
Inductive jumps_below (n : Z) : instr -> machine -> Prop :=
| below_jump : forall o a, a_pc a + 1 + o < 0 -> jumps_below n (IRelative_Jump o) a
| below_jump_if : forall o b x s f cs pc, pc + 1 + o < 0 ->
    jumps_below n (IRelative_Jump_If o b) (Machine (CV TBool x :: s) f cs pc).

(** Machines a caller can build: a program of fewer than 2^62 instructions whose jump distances are below
    2^62 in absolute value, call addresses that are sizes, a counter inside the range of [Size], well-formed
    values everywhere, and return addresses in the range of [Size]. *)
Definition instr_ok (i : instr) : Prop :=
  match i with
  | IRelative_Jump o | IRelative_Jump_If o _ => - 2 ^ 62 < o < 2 ^ 62
  | ICall address => 0 <= address < 2 ^ 64
  | IPush v => wf_value v
  | IConvert t => wf_type t
  | _ => True
  end.

Definition frames_ok (f : linmap) : Prop :=
  Forall (fun e => wf_value (e_value e) /\ (e_key e = None -> 0 <= cv_int (e_value e) < 2 ^ 64)) f.

Definition machine_ok (m : vm) : Prop :=
  instruction_count (vm_instructions m) < 2 ^ 62
  /\ Forall instr_ok (vm_instructions m)
  /\ 0 <= vm_counter m < 2 ^ 64
  /\ Forall wf_value (vm_stack m)
  /\ frames_ok (vm_frames m).
