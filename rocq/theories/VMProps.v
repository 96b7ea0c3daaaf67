(** Final theorems about single cycles of the virtual machine: properties C20 and C22.
    [effect], [faults] and [crashes] (VMSpec.v) state what every instruction is documented to do. *)
From Coq Require Import ZArith List Bool Lia.
From Verif Require Import Prelude Types Ops LinMap LinMapSpec LinMapProofs VM VMSpec VMProofs.
Import ListNotations.
Open Scope Z_scope.

(** Checks [machine_ok] of a concrete machine. *)
Ltac ok_list :=
  repeat (apply Forall_cons;
    [unfold instr_ok, wf_value; cbn [wf_type in_type_range cv_type cv_int cv_Void cv_True cv_False e_value e_key];
     intuition (discriminate || lia)|]);
  apply Forall_nil.
Ltac ok_machine :=
  unfold machine_ok, frames_ok;
  cbn [vm_instructions vm_counter vm_stack vm_frames];
  split; [reflexivity|]; split; [ok_list|]; split; [lia|]; split; [ok_list|ok_list].

(** ** C20: a cycle does what the instruction documents, and nothing else *)

(** The machine advances to [b] exactly if the instruction documents this and the counter moves. Missing:
    jumps to before the start of the program, see [C20_total_refuted]. *)
Theorem C20_advances_exactly_partial : forall m i, machine_ok m ->
  fetch (vm_instructions m) (vm_counter m) = Some i ->
  ~ jumps_below (instruction_count (vm_instructions m)) i (abs m) ->
  forall b, (exists m', cycle m = Ok m' /\ same b (abs m'))
            <-> (exists b', effect (instruction_count (vm_instructions m)) i (abs m) b'
                            /\ same b b' /\ a_pc b' <> vm_counter m).
Proof. exact cycle_ok_iff. Qed.

Theorem C20_reports_exactly_partial : forall m i, machine_ok m ->
  fetch (vm_instructions m) (vm_counter m) = Some i ->
  ~ jumps_below (instruction_count (vm_instructions m)) i (abs m) ->
  forall x, (exists e, cycle m = Err e /\ ee_code e = x)
            <-> faults (instruction_count (vm_instructions m)) i (abs m) x
                \/ (x = x_infinite_loop
                    /\ exists b, effect (instruction_count (vm_instructions m)) i (abs m) b
                                 /\ a_pc b = vm_counter m).
Proof. exact cycle_error_iff. Qed.

(** The effect is unique, and so is the error. *)
Theorem C20_effect_unique : forall n i a b b', effect n i a b -> effect n i a b' -> b = b'.
Proof. exact effect_deterministic. Qed.

Theorem C20_error_unique : forall n i a c c', faults n i a c -> faults n i a c' -> c = c'.
Proof. exact fault_unique. Qed.

(** A cycle neither advances nor reports an error exactly in these situations. *)
Theorem C20_crashes_exactly : forall m, machine_ok m ->
  (~ defined (cycle m)
   <-> fetch (vm_instructions m) (vm_counter m) = None
       \/ exists i, fetch (vm_instructions m) (vm_counter m) = Some i
                    /\ crashes (instruction_count (vm_instructions m)) i (abs m)).
Proof. exact cycle_crash_iff. Qed.

(** The program text never changes, and the values stay well-formed. *)
Theorem C20_program_unchanged : forall m, machine_ok m ->
  (forall m', cycle m = Ok m' ->
     machine_ok m' /\ vm_instructions m' = vm_instructions m /\ vm_counter m' <> vm_counter m)
  /\ (forall e, cycle m = Err e ->
        vm_instructions (ee_machine e) = vm_instructions m
        /\ vm_counter (ee_machine e) = vm_counter m).
Proof.
  intros m Hm. split; intros x H; [apply cycle_preserves|apply cycle_error_text]; assumption.
Qed.

(** The full statement, "a cycle is defined on every reachable state", is false: a jump to before the
    program is carried out, and running past the last instruction throws. *)
Theorem C20_total_refuted :
  (exists m m', machine_ok m /\ cycle m = Ok m' /\ cycle m' = Abort
     /\ exists o, vm_instructions m = [IRelative_Jump o])
  /\ (exists m m', machine_ok m /\ cycle m = Ok m' /\ cycle m' = Abort
     /\ vm_instructions m = [IPush cv_Void]).
Proof.
  split.
  - exists (VM [IRelative_Jump (-5)] [] [] 0 None). eexists.
    split; [|split; [vm_compute; reflexivity|split; [vm_compute; reflexivity|eexists; reflexivity]]].
    ok_machine.
  - exists (VM [IPush cv_Void] [] [] 0 None). eexists.
    split; [|split; [vm_compute; reflexivity|split; [vm_compute; reflexivity|reflexivity]]].
    ok_machine.
Qed.

(** A program that computes [40 + 2], stores it, loads it and calls a function; [machine_ok] holds. *)
Definition C20_program : list instr :=
  [IPush (CV (TUint 8) 40); IPush (CV TInt 2); IBinary_Operate binary_plus; IStore (Some 7%positive);
   ILoad (Some 7%positive); ICall 7; IPop; IStore (Some 9%positive); IPush cv_Void; IReturn].

Example C20_example_run :
  machine_ok (VM C20_program [] [] 0 None) /\
  option_map (fun r => match r with Err e => Some (ee_code e, vm_stack (ee_machine e)) | _ => None end)
    (run 8 (VM (firstn 6 C20_program ++ [IReturn] ++ skipn 7 C20_program) [] [] 0 None)) = None /\
  run 12 (VM (firstn 6 C20_program ++ [IReturn] ++ skipn 7 C20_program) [] [] 0 None)
  = Some (Err (ExecError x_pop_call None
       (VM (firstn 6 C20_program ++ [IReturn] ++ skipn 7 C20_program)
          [Entry (Some 7%positive) (CV (TUint 8) 42)] [cv_Void] 6 None))).
Proof.
  split; [|vm_compute; auto].
  unfold C20_program. ok_machine.
Qed.

(** ** C22: what infinite_loop means *)

(** The report is right for unconditional jumps and for calls. *)
Theorem C22_jump_or_call_partial : forall m e, cycle m = Err e -> ee_code e = x_infinite_loop ->
  (exists i, fetch (vm_instructions m) (vm_counter m) = Some i
             /\ ((exists o, i = IRelative_Jump o) \/ (exists a, i = ICall a))) ->
  never_stops (ee_machine e).
Proof. exact infinite_loop_jump. Qed.

(** The error is reported only if the counter did not move. *)
Theorem C22_counter_unchanged : forall m e, cycle m = Err e -> ee_code e = x_infinite_loop ->
  exists i, fetch (vm_instructions m) (vm_counter m) = Some i
    /\ execute m i = Ok (ee_machine e) /\ vm_counter (ee_machine e) = vm_counter m.
Proof. exact infinite_loop_cases. Qed.

(** The full statement is false: a conditional jump to itself stops when the next condition differs, and
    a return to itself stops when there is no further caller. *)
Theorem C22_infinite_loop_refuted :
  (exists m e, machine_ok m /\ cycle m = Err e /\ ee_code e = x_infinite_loop
     /\ ~ never_stops (ee_machine e)
     /\ exists o b, fetch (vm_instructions m) (vm_counter m) = Some (IRelative_Jump_If o b))
  /\ (exists m e, machine_ok m /\ cycle m = Err e /\ ee_code e = x_infinite_loop
     /\ ~ never_stops (ee_machine e)
     /\ fetch (vm_instructions m) (vm_counter m) = Some IReturn).
Proof.
  split.
  - exists (VM [IRelative_Jump_If (-1) true; IPush cv_Void] [] [cv_True; cv_False] 0 None). eexists.
    split; [|split; [vm_compute; reflexivity|split; [reflexivity|split; [|do 2 eexists; reflexivity]]]].
    + ok_machine.
    + intros H. destruct (H 3%nat) as [m' E]. vm_compute in E. discriminate.
  - exists (VM [ICall 1; IReturn] [Entry None (CV TInt 1)] [] 1 None). eexists.
    split; [|split; [vm_compute; reflexivity|split; [reflexivity|split; [|reflexivity]]]].
    + ok_machine.
    + intros H. destruct (H 1%nat) as [m' E]. vm_compute in E. discriminate.
Qed.

(** A tail-recursive function: it counts its argument down to zero and returns 7. Started on the argument 3
    it finishes (without the check) with that result, but the machine reports an infinite loop. *)
Definition C22_tail_recursive : list instr :=
  [IStore (Some 1%positive); ILoad (Some 1%positive); IPush (CV TInt 0); IBinary_Operate equals;
   IRelative_Jump_If 2 false; IPush (CV TInt 7); IReturn;
   ILoad (Some 1%positive); IPush (CV TInt 1); IBinary_Operate binary_minus; ICall 0; IReturn].

Theorem C22_tail_recursion_refuted :
  exists m, vm_instructions m = C22_tail_recursive /\ vm_counter m = 0 /\ vm_stack m = [CV TInt 3]
    /\ (exists n e, run n m = Some (Err e) /\ ee_code e = x_infinite_loop)
    /\ (exists n m' e, unchecked_run n m = Ok m' /\ cycle m' = Err e /\ ee_code e = x_pop_call
          /\ vm_stack (ee_machine e) = [CV TInt 7]).
Proof.
  exists (VM C22_tail_recursive [] [CV TInt 3] 0 None). repeat split.
  - exists 60%nat. eexists. vm_compute. split; reflexivity.
  - exists 36%nat. do 2 eexists. split; [vm_compute; reflexivity|]. split; [vm_compute; reflexivity|].
    split; reflexivity.
Qed.

Example C22_example_real_loop :
  exists e, cycle (VM [IRelative_Jump (-1)] [] [] 0 None) = Err e /\ ee_code e = x_infinite_loop.
Proof. eexists. vm_compute. split; reflexivity. Qed.

(** * Assumptions of the theorems above *)
Print Assumptions C20_advances_exactly_partial.
Print Assumptions C20_reports_exactly_partial.
Print Assumptions C20_effect_unique.
Print Assumptions C20_error_unique.
Print Assumptions C20_crashes_exactly.
Print Assumptions C20_program_unchanged.
Print Assumptions C20_total_refuted.
Print Assumptions C22_jump_or_call_partial.
Print Assumptions C22_counter_unchanged.
Print Assumptions C22_infinite_loop_refuted.
Print Assumptions C22_tail_recursion_refuted.
