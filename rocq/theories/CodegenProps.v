(** Final theorems about code generation: properties C21 and C23 to C26.
    The evaluator of SourceSem.v is the specification.  [eval false] (and [exec], [call]) is the meaning
    that uses recorded constants and omits conversions for [let], assignment and branches; that this
    differs from the meaning of the language is why the theorems about values are called partial. *)
From Coq Require Import ZArith Ascii String List Bool Lia.
From Verif Require Import Prelude Types Ops Text Tables AbsOps LinMap LinMapSpec LinMapProofs VM VMSpec VMProofs
  Ast AstFacts Codegen SourceSem CodegenSpec CodegenProofs CodegenRun CodegenJumps.
Import ListNotations.
Open Scope string_scope.
Open Scope list_scope.
Open Scope Z_scope.

(** ** A program for the examples *)

Definition x_int : option avalue := Some (AV TInt None).
Definition x_bool : option avalue := Some (AV TBool None).
Definition x_type (t : type_type) (c : ctype) : type_node := Type_Node (Some (AV c None)) t None None.
Definition x_Int : type_node := x_type tt_Int TInt.
Definition x_let (n : positive) (e : expr) : stmt := SLet x_int (str "v") n None (Some e).
Definition x_assign (n : positive) (e : expr) : stmt := SAssign x_int (str "v") (Some (LNode DLet n)) e.
Definition x_var (n : positive) : expr := EId x_int (str "v") (Some (LNode DLet n)) None.
Definition x_par (n : positive) : expr := EId x_int (str "p") (Some (LParameter n)) None.
Definition x_lit (z : Z) (t : text) : expr := ELiteral (Some (AV TInt (Some z))) t tk_decimal_literal.

(** [fn sum(n: Int) -> Int { let i = 0; let s = 0;
      while true_if (i < n || false) { i = i + 1; if (i == 3) { continue; } if (i > 90) { break; } s = s + i; }
      return s; }] *)
Definition x_sum : func :=
  Func (str "sum") 1 x_int [Param (str "n") 2 x_Int] x_Int None
    (SBlock None
       [x_let 3 (x_lit 0 (str "0")); x_let 4 (x_lit 0 (str "0"));
        SWhile None
          (EBinary x_bool logical_or (EBinary x_bool less_than (x_var 3) (x_par 2))
             (ELiteral (Some (AV TBool (Some 0))) (str "false") tk_keyword_false))
          (SBlock None
             [x_assign 3 (EBinary x_int binary_plus (x_var 3) (x_lit 1 (str "1")));
              SIf None (EBinary x_bool equals (x_var 3) (x_lit 3 (str "3")))
                (SBlock None [SControl (Some (AV TVoid None)) ctl_continue None]) None;
              SIf None (EBinary x_bool greater_than (x_var 3) (x_lit 90 (str "90")))
                (SBlock None [SControl (Some (AV TVoid None)) ctl_break None]) None;
              x_assign 4 (EBinary x_int binary_plus (x_var 4) (x_var 3))]);
        SControl x_int ctl_return (Some (x_var 4))]) false None full.

(** [fn twice(n: Int) -> Int { return sum(n) + sum(n); }] *)
Definition x_twice : func :=
  Func (str "twice") 5 x_int [Param (str "n") 6 x_Int] x_Int None
    (SBlock None
       [SControl x_int ctl_return
          (Some (EBinary x_int binary_plus
                   (ECall x_int (str "sum") (Some (LNode DFunction 1)) false [x_par 6])
                   (ECall x_int (str "sum") (Some (LNode DFunction 1)) false [x_par 6])))]) false None full.

Definition x_table (n : positive) : option func :=
  match n with 1%positive => Some x_sum | 5%positive => Some x_twice | _ => None end.
Definition x_no_info : functions := fun _ => None.
Definition x_info : functions :=
  fun n => match n with 1%positive => Some (FunctionInfo [x_int] true (Some 0)) | _ => None end.
Definition x_code (info : functions) (f : func) : list instr :=
  match gen_function info f with Ok c => c | _ => [] end.
Definition x_prog : list instr := x_code x_no_info x_sum ++ x_code x_info x_twice.
Definition x_units (n : positive) : option code_unit :=
  match n with
  | 1%positive => Some (CodeUnit x_no_info 0 (x_code x_no_info x_sum))
  | 5%positive => Some (CodeUnit x_info (instruction_count (x_code x_no_info x_sum)) (x_code x_info x_twice))
  | _ => None
  end.

Lemma x_assembled : assembled x_prog.
Proof.
  exists [x_code x_no_info x_sum; x_code x_info x_twice]. split.
  - unfold x_prog. cbn [concat]. rewrite app_nil_r. reflexivity.
  - intros code [<-|[<-|[]]].
    + exists x_no_info, x_sum. split; [reflexivity|]. eexists _, _. split; [reflexivity|]. left.
      eexists [_; _; _], _, _. reflexivity.
    + exists x_info, x_twice. split; [reflexivity|]. eexists _, _. split; [reflexivity|]. left.
      eexists [], _, _. reflexivity.
Qed.

Lemma x_linked : linked x_prog x_table x_units.
Proof.
  intros n u H.
  assert (Hn : n = 5%positive \/ n = 1%positive).
  { destruct n as [n|n|]; [|discriminate|auto]. destruct n as [n|n|]; [discriminate| |discriminate].
    destruct n as [n|n|]; [discriminate|discriminate|auto]. }
  destruct Hn as [-> | ->]; injection H as <-.
  - exists x_twice. split; [reflexivity|]. split; [reflexivity|]. split; [reflexivity|].
    split; [discriminate|]. split.
    { exists (x_code x_no_info x_sum), []. split; [|reflexivity]. cbn [u_code]. rewrite app_nil_r. reflexivity. }
    intros n' i a. cbn [u_info x_info]. destruct n'; try discriminate. intros E _ Ha. injection E as <-. split.
    + exists x_sum. split; reflexivity.
    + injection Ha as <-. eexists. split; [reflexivity|]. split; [reflexivity|].
      vm_compute. discriminate.
  - exists x_sum. split; [reflexivity|]. split; [reflexivity|]. split; [reflexivity|].
    split; [discriminate|]. split.
    { exists [], (x_code x_info x_twice). split; reflexivity. }
    intros n' i. cbn [u_info]. discriminate.
Qed.

Definition x_start (args : list cvalue) : vm :=
  VM x_prog lm_clear (rev args) (instruction_count (x_code x_no_info x_sum)) None.

Ltac ok_instrs :=
  repeat (apply Forall_cons;
    [unfold instr_ok, wf_value; cbn [wf_type in_type_range cv_type cv_int cv_Void cv_True cv_False];
     intuition (discriminate || lia)|]);
  apply Forall_nil.

Lemma x_start_ok : forall z, - 2 ^ 127 <= z < 2 ^ 127 -> machine_ok (x_start [CV TInt z]).
Proof.
  intros z Hz. unfold machine_ok, x_start. cbn [vm_instructions vm_counter vm_stack vm_frames].
  split; [reflexivity|]. split.
  { let c := eval vm_compute in x_prog in change x_prog with c. ok_instrs. }
  split; [vm_compute; split; [discriminate|reflexivity]|].
  split; [|apply Forall_nil]. constructor; [|constructor]. split; [exact I|].
  exact Hz.
Qed.

(** ** C23: jumps are resolved and stay inside the function *)

(** No symbolic jump is left, if every [break] and [continue] is inside a loop. *)
Theorem C23_no_symbolic_jump : forall info f code, gen_function info f = Ok code ->
  loops_ok false (f_body f) = true ->
  forall i, fetch code i <> Some IBreak /\ fetch code i <> Some IContinue.
Proof.
  intros info f code Hg Hl i. destruct (function_jumps _ _ _ Hg) as [_ N]. specialize (N Hl).
  assert (H : forall c, fetch code i = Some c -> not_symbolic c).
  { intros c Hc. unfold fetch in Hc. destruct (_ && _)%bool; [|discriminate].
    apply nth_error_In in Hc. rewrite Forall_forall in N. apply N. exact Hc. }
  split; intros C; apply H in C; destruct C; congruence.
Qed.

(** The targets are inside the function, or just behind its last instruction: for "inside", see
    [C23_inside_refuted]. *)
Theorem C23_target_range_partial : forall info f code, gen_function info f = Ok code ->
  forall i target, jump_at code i target -> 0 <= target <= instruction_count code.
Proof.
  intros info f code Hg i t Hj. destruct (function_jumps _ _ _ Hg) as [W _].
  exact (within_jump _ _ _ _ _ W Hj).
Qed.

(** They are inside if the last statement is [return], or if nothing is returned. *)
Theorem C23_target_inside_partial : forall info f code, gen_function info f = Ok code -> ends_with_return f ->
  forall i target, jump_at code i target -> 0 <= target < instruction_count code.
Proof.
  intros info f code Hg He i t Hj.
  pose proof (within_jump _ _ _ _ _ (function_jumps_strict _ _ _ Hg He) Hj). unfold size in *. lia.
Qed.

(** The code of any number of such functions has no jump out of the program. *)
Theorem C23_programs_closed_partial : forall prog, assembled prog -> closed prog.
Proof. exact assembled_closed. Qed.

(** [fn f(b: Bool) -> Int { if b { return 1; } }]: the jump around the block leads behind the code. *)
Definition x_no_return : func :=
  Func (str "f") 1 x_int [Param (str "b") 2 (x_type tt_Bool TBool)] x_Int None
    (SBlock None
       [SIf None (EId x_bool (str "b") (Some (LParameter 2)) None)
          (SBlock None [SControl (Some (AV TInt (Some 1))) ctl_return (Some (x_lit 1 (str "1")))]) None])
    false None full.
Theorem C23_inside_refuted : exists info f code i target, gen_function info f = Ok code
  /\ loops_ok false (f_body f) = true /\ shaped (f_body f) = true
  /\ jump_at code i target /\ target = instruction_count code.
Proof.
  exists x_no_info, x_no_return. eexists. exists 2, 5. split; [vm_compute; reflexivity|].
  split; [reflexivity|]. split; [reflexivity|]. split; [|reflexivity].
  exists 2. split; [reflexivity|]. right. exists false. reflexivity.
Qed.

Example C23_example : exists code, gen_function x_no_info x_sum = Ok code
  /\ fetch code 26 = Some (IRelative_Jump 5) /\ fetch code 21 = Some (IRelative_Jump (-17))
  /\ fetch code 31 = Some (IRelative_Jump (-27)) /\ instruction_count code = 34
  /\ loops_ok false (f_body x_sum) = true.
Proof. eexists. split; [vm_compute; reflexivity|]. vm_compute. repeat split. Qed.

(** ** C24: expressions *)

(** From every machine that is about to run the code of an expression: the value of the expression is
    pushed, and nothing else changes; an error of the evaluator is reported; where evaluation crashes the
    machine does; and the machine runs on where evaluation does not finish.
    Missing: recorded constants and the types of branches are trusted ([eval false]). *)
Theorem C24_expression_partial : forall table constants units m info e code fuel,
  machine_ok m -> closed (vm_instructions m) -> linked (vm_instructions m) table units ->
  callees_known table units (vm_counter m) info ->
  plain e = true -> gen_expr info e = Ok code ->
  located (vm_instructions m) (vm_counter m) code ->
  follows fuel m (eval false table constants (call false table constants fuel) (current (vm_frames m)) e)
    (fun v m' => vm_stack m' = v :: vm_stack m /\ same_frames (vm_frames m') (vm_frames m)
                 /\ vm_counter m' = vm_counter m + instruction_count code).
Proof. intros. eapply expression_runs; eassumption. Qed.

(** [b && 1 / z == 1]: not evaluated, and so not an error, if [b] is false. *)
Definition x_guarded : expr :=
  EBinary x_bool logical_and (EId x_bool (str "b") (Some (LParameter 1)) None)
    (EBinary x_bool equals
       (EBinary x_int division (x_lit 1 (str "1")) (x_par 2)) (x_lit 1 (str "1"))).
Example C24_example_short_circuit :
  let vars b := update (update empty_env 1%positive b) 2%positive (CV TInt 0) in
  let value b := eval false x_table (fun _ => None) (fun _ _ => None) (vars b) x_guarded in
  value cv_False = Some (Ok cv_False) /\ value cv_True = Some (Err (s_eval division_by_zero))
  /\ gen_expr x_no_info x_guarded
     = Ok [ILoad (Some 1%positive); IRelative_Jump_If 6 false; IPush (CV TInt 1); ILoad (Some 2%positive);
           IBinary_Operate division; IPush (CV TInt 1); IBinary_Operate equals;
           IRelative_Jump 1; IPush cv_False].
Proof. vm_compute. repeat split. Qed.

(** ** C25: statements *)

(** From every machine that is about to run the code of a statement: when the statement ends normally,
    control is behind its code and the variables are those of the evaluator; after [return] the value is on
    top of the stack and a return instruction comes next; a [break] or [continue] leads to its symbolic
    jump (which the enclosing loop has replaced); errors, crashes and divergence are as for expressions.
    Missing: as for C24. *)
Theorem C25_statement_partial : forall table constants units m info return_type st code fuel,
  machine_ok m -> closed (vm_instructions m) -> linked (vm_instructions m) table units ->
  callees_known table units (vm_counter m) info ->
  shaped st = true -> gen_stmt info return_type st = Ok code ->
  located (vm_instructions m) (vm_counter m) code ->
  follows fuel m
    (exec false table constants (call false table constants fuel) return_type fuel (current (vm_frames m)) st)
    (fun r m' =>
       match r with
       | (Normal, vars) =>
           vm_counter m' = vm_counter m + instruction_count code /\ vm_stack m' = vm_stack m
           /\ (forall p, current (vm_frames m') p = vars p)
           /\ frames_eq (saved (vm_frames m)) (saved (vm_frames m'))
       | (Breaks, _) => fetch (vm_instructions m) (vm_counter m') = Some IBreak
       | (Continues, _) => fetch (vm_instructions m) (vm_counter m') = Some IContinue
       | (Returns v, vars) =>
           fetch (vm_instructions m) (vm_counter m') = Some IReturn /\ vm_stack m' = v :: vm_stack m
           /\ (forall p, current (vm_frames m') p = vars p)
           /\ frames_eq (saved (vm_frames m)) (saved (vm_frames m'))
       end).
Proof. intros. eapply statement_runs; eassumption. Qed.

(** A loop runs exactly as often as the evaluator says. *)
Example C25_example_loop :
  call false x_table (fun _ => None) 12 1%positive [CV TInt 6] = Some (Ok (CV TInt 18))
  /\ call false x_table (fun _ => None) 6 1%positive [CV TInt 6] = None.
Proof. vm_compute. split; reflexivity. Qed.

(** ** C26: functions *)

(** A call instruction: the arguments are popped, the value of the function is pushed, and the variables
    of the caller are what they were.  Missing: as for C24; and the code of a function lies below the call,
    which is how analysis lays out programs (it rejects recursive calls). *)
Theorem C26_call_partial : forall table constants units m n u args s fuel,
  machine_ok m -> closed (vm_instructions m) -> linked (vm_instructions m) table units ->
  units n = Some u ->
  fetch (vm_instructions m) (vm_counter m) = Some (ICall (u_start u)) ->
  u_start u + instruction_count (u_code u) <= vm_counter m ->
  vm_stack m = rev args ++ s ->
  follows fuel m (call false table constants fuel n args)
    (fun v m' => vm_stack m' = v :: s /\ same_frames (vm_frames m') (vm_frames m)
                 /\ vm_counter m' = vm_counter m + 1).
Proof. intros. eapply call_runs; eassumption. Qed.

(** A run that starts with a function, the way constant calls are evaluated (src/bms/analyze.cpp:926-972). *)
Section Start.
Variables (table : positive -> option func) (constants : positive -> option cvalue).
Variables (units : positive -> option code_unit) (m : vm) (n : positive) (u : code_unit) (args : list cvalue).
Definition started : Prop :=
  machine_ok m /\ closed (vm_instructions m) /\ linked (vm_instructions m) table units
  /\ units n = Some u /\ vm_counter m = u_start u /\ vm_stack m = rev args /\ vm_frames m = lm_clear.
End Start.

(** It finishes if the evaluator does: with the value alone on the stack, *)
Theorem C26_run_value_partial : forall table constants units m n u args fuel v,
  started table units m n u args ->
  call false table constants (S fuel) n args = Some (Ok v) ->
  exists k x, run k m = Some (Err x) /\ ee_code x = x_pop_call /\ vm_stack (ee_machine x) = [v].
Proof. intros * (H1 & H2 & H3 & H4 & H5 & H6 & H7) H. eapply entry_value; eassumption. Qed.

(** with the same error, *)
Theorem C26_run_error_partial : forall table constants units m n u args fuel e c,
  started table units m n u args ->
  call false table constants (S fuel) n args = Some (Err e) -> reported e = Some c ->
  exists k x, run k m = Some (Err x) /\ ee_code x = c.
Proof. intros * (H1 & H2 & H3 & H4 & H5 & H6 & H7) H Hr. eapply entry_error; eassumption. Qed.

(** and it does not finish if the evaluator does not. *)
Theorem C25_diverges_partial : forall table constants units m n u args,
  started table units m n u args ->
  (forall fuel, call false table constants (S fuel) n args = None) ->
  forall k, run k m = None.
Proof. intros * (H1 & H2 & H3 & H4 & H5 & H6 & H7) H k. eapply entry_unfinished; try eassumption. apply H. Qed.

Lemma x_started : forall z, - 2 ^ 127 <= z < 2 ^ 127 ->
  exists u, x_units 5%positive = Some u /\ started x_table x_units (x_start [CV TInt z]) 5%positive u [CV TInt z].
Proof.
  intros z Hz. eexists. split; [reflexivity|]. split; [apply x_start_ok; exact Hz|].
  split; [apply assembled_closed, x_assembled|]. split; [exact x_linked|]. repeat split.
Qed.

(** The hypotheses hold for the example, and the machine computes what the theorem says. *)
Example C26_example_value :
  call false x_table (fun _ => None) 12 5%positive [CV TInt 6] = Some (Ok (CV TInt 36))
  /\ (exists k x, run k (x_start [CV TInt 6]) = Some (Err x) /\ ee_code x = x_pop_call
                  /\ vm_stack (ee_machine x) = [CV TInt 36]).
Proof.
  split; [vm_compute; reflexivity|]. destruct (x_started 6 ltac:(lia)) as (u & _ & H).
  eapply C26_run_value_partial with (fuel := 11%nat) (constants := fun _ => None); [exact H|]. vm_compute. reflexivity.
Qed.

(** ** C21: which errors generated code can report *)

(** If the evaluator finds no fault in the tree and no missing [return], then the machine never pops from an
    empty stack, never jumps or calls out of the program, never reports an infinite loop, and executes no
    symbolic jump if [break] and [continue] are inside loops; and it crashes only where an operation does.
    Missing: reading an uninitialised variable is possible, and the hypotheses about the evaluator. *)
Theorem C21_errors_partial : forall table constants units m n u args,
  started table units m n u args ->
  (forall n' f, table n' = Some f -> loops_ok false (f_body f) = true) ->
  (forall fuel, call false table constants fuel n args <> Some (Err s_stuck)
                /\ call false table constants fuel n args <> Some (Err s_no_value)) ->
  forall k r, run k m = Some r ->
  match r with
  | Err x =>
      ee_code x = x_pop_call \/ ee_code x = x_load_uninitialized \/ ee_code x = x_jump_if_not_bool
      \/ exists e, ee_code x = x_evaluation e
  | Ok _ => False
  | Abort | UB => exists r', call false table constants (S k) n args = Some r' /\ ~ defined r'
  end.
Proof.
  intros table constants units m n u args (H1 & H2 & H3 & H4 & H5 & H6 & H7) Hloops Hres k r Hr.
  destruct (entry_stops table constants units m H1 H2 H3 n u args H4 H5 H6 H7 k r Hr) as (res & Hc & H).
  destruct (Hres (S k)) as [N1 N2].
  pose proof (call_no_break false table constants Hloops (S k) n args) as N3.
  destruct res as [v|e| |].
  - destruct H as (x & -> & Hx & _). auto.
  - assert (e <> s_break_outside_loop) by (apply N3; exact Hc).
    destruct e; try congruence; destruct (H _ eq_refl) as (x & -> & Hx); eauto.
  - destruct r; cbn in H; try tauto; eauto.
  - destruct r; cbn in H; try tauto; eauto.
Qed.

(** * Assumptions of the theorems above *)
Print Assumptions C23_no_symbolic_jump.
Print Assumptions C23_target_range_partial.
Print Assumptions C23_target_inside_partial.
Print Assumptions C23_programs_closed_partial.
Print Assumptions C23_inside_refuted.
Print Assumptions C24_expression_partial.
Print Assumptions C25_statement_partial.
Print Assumptions C26_call_partial.
Print Assumptions C26_run_value_partial.
Print Assumptions C26_run_error_partial.
Print Assumptions C25_diverges_partial.
Print Assumptions C21_errors_partial.
