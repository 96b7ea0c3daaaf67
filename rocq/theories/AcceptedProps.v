(** Final theorems about programs that the analysis accepts: properties C21 and C24 to C30. *)
From Coq Require Import ZArith Ascii String List Bool Lia.
From Verif Require Import Prelude Types Ops OpsSpec Text Tables AbsOps Literals LinMap LinMapSpec LinMapProofs VM VMSpec Ast Codegen SourceSem
  CodegenSpec CodegenProofs CodegenRun CodegenProps Analyze Annotated AnnotatedProofs Programs AnalyzeProofs AnalyzeProps AcceptedSpec
  AcceptedProofs.
Import ListNotations.
Open Scope string_scope.
Open Scope list_scope.
Open Scope Z_scope.

(** A program used in the examples:
<<
fn sum(n: Int) -> Int {
  let s: Int = 0; let i: Int = 0;
  while i < n { s = s + i; i = i + 1; }
  return s;
}
fn twice(b: Bool, x: Uint(8)) -> Uint(8) { if b { return x + x; } return sum(3 * 2) as Uint(8); }
const y = sum(4);
const z: Uint(8) = twice(true, 200 as Uint(8));
static_assert(twice(false, z) == 15 as Uint(8));
>> *)
Definition n_set (n : positive) (e : expr) : stmt := SAssign None (str "v") (Some (LNode DLet n)) e.
Definition n_as (e : expr) (t : type_node) : expr := EConversion None e t.
Definition n_con (n : positive) : expr := EId None (str "c") (Some (LNode DConst n)) None.
Definition p_sum : func :=
  n_fun 1 [(2%positive, n_Int)] n_Int
    [n_let 3 n_Int (Some (n_lit "0")); n_let 4 n_Int (Some (n_lit "0"));
     SWhile None (n_bin less_than (n_var 4) (n_par 2))
       (SBlock None [n_set 3 (n_bin binary_plus (n_var 3) (n_var 4));
                     n_set 4 (n_bin binary_plus (n_var 4) (n_lit "1"))]);
     n_ret (n_var 3)].
Definition p_twice : func :=
  n_fun 5 [(6%positive, n_Bool); (7%positive, n_Uint "8")] (n_Uint "8")
    [SIf None (n_par 6) (SBlock None [n_ret (n_bin binary_plus (n_par 7) (n_par 7))]) None;
     n_ret (n_as (n_call 1 [n_bin multiplication (n_lit "3") (n_lit "2")]) (n_Uint "8"))].
Definition p_items : list item :=
  [Item_Function 1; Item_Function 5;
   n_constant 8 None (n_call 1 [n_lit "4"]);
   n_constant 9 (Some (n_Uint "8")) (n_call 5 [n_true; n_as (n_lit "200") (n_Uint "8")]);
   Item_Statement (SStatic_Assert None
     (n_bin equals (n_call 5 [n_false; n_con 9]) (n_as (n_lit "15") (n_Uint "8"))))].
Definition p_table := n_table [p_sum; p_twice].
Definition p_consts (n : positive) : bool := Pos.eqb n 8 || Pos.eqb n 9.
Definition p_state : state := state_after (analyze_program 1000 20 p_table p_items).

Lemma p_table_cases : forall n f, p_table n = Some f -> (n = 1%positive /\ f = p_sum) \/ (n = 5%positive /\ f = p_twice).
Proof.
  intros n f H. unfold p_table, n_table in H. cbn [find f_self p_sum p_twice n_fun] in H.
  destruct (Pos.eqb_spec n 1); [left; split; [assumption|congruence]|].
  destruct (Pos.eqb_spec n 5); [right; split; [assumption|congruence]|discriminate].
Qed.

Example accepted_example : passes p_consts p_table p_items p_state.
Proof.
  split.
  - assert (R : forall f, f = p_sum \/ f = p_twice -> function_ready p_consts f).
    { assert (N : forall l : list positive, nodup Pos.eq_dec l = l -> NoDup l)
        by (intros l <-; apply NoDup_nodup).
      intros f [-> | ->]; (repeat split; try reflexivity);
        try (cbn in H; destruct H as [<-|[<-|[]]] || destruct H as [<-|[]]; reflexivity);
        try (apply N; reflexivity).
      - do 2 eexists. split; [reflexivity|]. left. eexists [_; _; _], _, _. reflexivity.
      - do 2 eexists. split; [reflexivity|]. left. eexists [_], _, _. reflexivity. }
    split; [|split; [|split; [|split]]].
    + intros n f H. apply p_table_cases in H as [[-> ->]|[-> ->]]; (split; [apply R; tauto|cbn; tauto]).
    + intros n n' f f' p H H'. apply p_table_cases in H as [[-> ->]|[-> ->]];
        apply p_table_cases in H' as [[-> ->]|[-> ->]]; cbn; intuition congruence.
    + intros s H. cbn in H. repeat (destruct H as [H|H]; [first [discriminate|injection H as <-; split; reflexivity]|]).
      destruct H.
    + cbn. repeat constructor; cbn; intuition congruence.
    + intros n f p H. apply p_table_cases in H as [[-> ->]|[-> ->]]; cbn; intuition congruence.
  - exists 1000%nat, 20%nat. eexists. accepts.
Qed.

(** The functions after analysis. *)
Definition p_sum_after : func :=
  Eval vm_compute in match st_functions p_state 1%positive with Some f => f | None => p_sum end.
Definition p_twice_after : func :=
  Eval vm_compute in match st_functions p_state 5%positive with Some f => f | None => p_twice end.
Example accepted_example_direct : direct_program p_state.
Proof.
  intros n f H. destruct accepted_example as (R & _).
  destruct (program_ok p_consts 1000 20 p_table p_items _ p_state R ltac:(accepts)) as (_ & D & _).
  destruct (p_table n) as [g|] eqn:E.
  - apply p_table_cases in E as [[-> _]|[-> _]].
    + assert (E : st_functions p_state 1%positive = Some p_sum_after) by (vm_compute; reflexivity).
      rewrite E in H. injection H as <-. cbn. intuition.
    + assert (E : st_functions p_state 5%positive = Some p_twice_after) by (vm_compute; reflexivity).
      rewrite E in H. injection H as <-. cbn. intuition.
  - apply D in E. congruence.
Qed.

(** ** Types *)

(** C30 for calls: a call with arguments of the declared types yields a value of the declared return type, or
    an error of an operation that is not about types, or it meets a variable or constant without value; it
    does not get stuck.
    Missing: it is refuted for generated code, which does not convert ([C30_value_refuted],
    [C30_type_error_refuted]); this is about the meaning with conversions. *)
Theorem C30_calls_partial : forall consts table items st, passes consts table items st ->
  forall fuel n f t args, analysed_function st n f t -> typed_args f args ->
  match meaning st fuel n args with
  | Some (Ok v) => wf_value v /\ cv_type v = t
  | Some (Err e) => excusable e
  | _ => True
  end.
Proof. intros consts table items st H. apply meaning_typed. eapply passes_accepted. exact H. Qed.

(** C30 for expressions: every expression in a function, in variables of their recorded types, has a recorded
    type and yields a value of it, or fails in one of those ways.
    Missing: as above. *)
Theorem C30_expressions_partial : forall consts table items st, passes consts table items st ->
  forall fuel n f e vars, st_functions st n = Some f -> In e (run_exprs (f_body f)) ->
  typed_vars (st_values st) vars ->
  exists t, option_map av_type (expr_cv e) = Some t /\ wf_type t
    /\ typed_result t (eval true (st_functions st) (constants_of (st_values st)) (meaning st fuel) vars e).
Proof.
  intros consts table items st H fuel n f e vars Hf He Hv.
  destruct (expression_recorded st (passes_accepted _ _ _ _ H) fuel n f e vars Hf He Hv) as (a & Ha & Hw & Hr & _).
  exists (av_type a). rewrite Ha. auto.
Qed.

(** C27 for the meaning with conversions: statements keep all variables at their recorded types.
    Missing: it is refuted for generated code ([C27_variable_refuted]). *)
Theorem C27_statements_partial : forall consts table items st, passes consts table items st ->
  forall fuel n f t s vars, analysed_function st n f t -> In s (stmts_in (f_body f)) ->
  typed_vars (st_values st) vars ->
  match exec true (st_functions st) (constants_of (st_values st)) (meaning st fuel) t fuel vars s with
  | Some (Ok (_, vars')) => typed_vars (st_values st) vars'
  | _ => True
  end.
Proof. intros consts table items st H. apply statement_typed. eapply passes_accepted. exact H. Qed.

(** C28 for programs whose functions end in a [return] statement or return nothing: no call ends without a
    value, whatever the arguments.
    Missing: it is refuted for other functions ([C28_runs_on_refuted], [C28_no_code_refuted]). *)
Theorem C28_returns_partial : forall consts table items st, passes consts table items st ->
  forall fuel n args, meaning st fuel n args <> Some (Err s_no_value).
Proof.
  intros consts table items st H fuel n args E.
  apply (call_has_value true _ (constants_of (st_values st)) (ap_ends _ (passes_accepted _ _ _ _ H)) fuel n args
           s_no_value E). reflexivity.
Qed.

(** ** Recorded values *)

(** C29: if a value is recorded for an expression in a function then evaluation yields it, in all variables of
    their recorded types.
    Missing: this is the evaluator, which does not use recorded values of expressions; the code that is
    generated for the expression is in [C29_code_partial]. *)
Theorem C29_folding_partial : forall consts table items st, passes consts table items st ->
  forall fuel n f e vars z t, st_functions st n = Some f -> In e (run_exprs (f_body f)) ->
  typed_vars (st_values st) vars -> expr_cv e = Some (AV t (Some z)) ->
  eval true (st_functions st) (constants_of (st_values st)) (meaning st fuel) vars e = ret (CV t z).
Proof.
  intros consts table items st H fuel n f e vars z t Hf He Hv Hc.
  destruct (expression_recorded st (passes_accepted _ _ _ _ H) fuel n f e vars Hf He Hv) as (a & Ha & _ & _ & Hr).
  rewrite Hc in Ha. injection Ha as <-. apply Hr. reflexivity.
Qed.

(** C29: the code generated for such an expression pushes the recorded value, on every machine.
    Missing: the code of an expression in which no value is recorded; see [C24_expression_partial]. *)
Theorem C29_code_partial : forall table units m info e code t z,
  machine_ok m -> closed (vm_instructions m) -> linked (vm_instructions m) table units ->
  callees_known table units (vm_counter m) info ->
  plain e = true -> gen_expr info e = Ok code -> located (vm_instructions m) (vm_counter m) code ->
  expr_cv e = Some (AV t (Some z)) ->
  exists k m', cycles k m m' /\ vm_stack m' = CV t z :: vm_stack m /\ same_frames (vm_frames m') (vm_frames m)
    /\ vm_counter m' = vm_counter m + instruction_count code.
Proof.
  intros table units m info e code t z Hm Hcl Hl Hk Hp Hg Hloc Hcv.
  pose proof (C24_expression_partial table (fun _ => None) units m info e code 0 Hm Hcl Hl Hk Hp Hg Hloc) as F.
  rewrite (eval_uses_record _ _ _ _ _ _ _ Hcv) in F.
  destruct F as (k & m1 & Hc & H1 & H2 & H3). exists k, m1. auto.
Qed.

(** ** Running generated code *)

(** C21 for programs that need no conversions: a run from the entry of a function with arguments of the
    declared types ends with the return from this function and one value of the return type on the stack,
    or an error of an operation that is not about types, or the use of a variable without value, or it crashes
    where the meaning of the call does.  The stack is never empty when something is popped, no symbolic jump
    is met, and the program is not left.
    Missing: variables without value cannot be excluded ([C21_uninitialized_refuted]), functions without
    [return] run past their end ([C21_jump_refuted]), programs that need conversions fail with type errors
    ([C30_type_error_refuted]). *)
Theorem C21_accepted_partial : forall consts table items st, passes consts table items st -> direct_program st ->
  forall n f t args m k r, analysed_function st n f t -> about_to_run st f args m -> run k m = Some r ->
  match r with
  | Err x =>
      (ee_code x = x_pop_call /\ exists v, vm_stack (ee_machine x) = [v] /\ wf_value v /\ cv_type v = t)
      \/ ee_code x = x_load_uninitialized
      \/ (exists e, ee_code x = x_evaluation e /\ e <> type_error)
  | Ok _ => False
  | Abort | UB => exists fuel r', meaning st fuel n args = Some r' /\ ~ defined r'
  end.
Proof.
  intros consts table items st H Hd n f t args m k r Hf Hm Hr.
  pose proof (machine_stops st (passes_accepted _ _ _ _ H) Hd n f t args m k r Hf Hm Hr) as S.
  destruct r as [|x| |]; [exact S| |eauto|eauto].
  destruct S as [(Hx & v & Hv & Hw & Ht & _)|(e & He & [->|(y & -> & Hy)] & _)].
  - left. eauto.
  - right. left. cbn in He. congruence.
  - right. right. exists y. cbn in He. split; congruence.
Qed.

(** C26 and C25 for whole programs that need no conversions: generated code yields the value, *)
Theorem C26_accepted_value_partial : forall consts table items st, passes consts table items st -> direct_program st ->
  forall fuel n f args m v, st_functions st n = Some f -> about_to_run st f args m ->
  meaning st (S fuel) n args = Some (Ok v) ->
  exists k x, run k m = Some (Err x) /\ ee_code x = x_pop_call /\ vm_stack (ee_machine x) = [v].
Proof. intros consts table items st H Hd. apply machine_value; [eapply passes_accepted; exact H|exact Hd]. Qed.

(** or reports the error, *)
Theorem C26_accepted_error_partial : forall consts table items st, passes consts table items st -> direct_program st ->
  forall fuel n f args m e c, st_functions st n = Some f -> about_to_run st f args m ->
  meaning st (S fuel) n args = Some (Err e) -> reported e = Some c ->
  exists k x, run k m = Some (Err x) /\ ee_code x = c.
Proof. intros consts table items st H Hd. apply machine_error; [eapply passes_accepted; exact H|exact Hd]. Qed.

(** and it runs on forever if the call does not finish.
    Missing: programs that need conversions, recursion, functions that do not end in [return]. *)
Theorem C25_accepted_diverges_partial : forall consts table items st, passes consts table items st -> direct_program st ->
  forall n f args m, st_functions st n = Some f -> about_to_run st f args m ->
  (forall fuel, meaning st (S fuel) n args = None) -> forall k, run k m = None.
Proof. intros consts table items st H Hd. apply machine_unfinished; [eapply passes_accepted; exact H|exact Hd]. Qed.

(** ** Examples *)

(** The constants of the program have the values of the calls. *)
Example C29_example_constants :
  st_values p_state 8%positive = Some (AV TInt (Some 6))
  /\ st_values p_state 9%positive = Some (AV (TUint 8) (Some 144))
  /\ meaning p_state 20 1 [CV TInt 4] = Some (Ok (CV TInt 6))
  /\ meaning p_state 20 5 [cv_True; CV (TUint 8) 200] = Some (Ok (CV (TUint 8) 144)).
Proof. vm_compute. auto. Qed.

(** [3 * 2] occurs in the second function and has a recorded value. *)
Example C29_example_folded :
  match st_functions p_state 5%positive with
  | Some f => existsb (fun e => match e with
                                | EBinary (Some (AV TInt (Some 6))) multiplication _ _ => true
                                | _ => false
                                end) (run_exprs (f_body f))
  | None => false
  end = true.
Proof. vm_compute. reflexivity. Qed.

(** A machine that is about to run the second function. *)
Definition p_code : list instr := Eval vm_compute in vm_instructions (st_vm p_state).
Definition p_machine (b : cvalue) (z : Z) : vm :=
  VM p_code lm_clear [CV (TUint 8) z; b] (match f_address p_twice_after with Some a => a | None => 0 end) None.
Example C21_example_ready : analysed_function p_state 5 p_twice_after (TUint 8)
  /\ forall b z, wf_value b -> cv_type b = TBool -> 0 <= z < 256 ->
     about_to_run p_state p_twice_after [b; CV (TUint 8) z] (p_machine b z).
Proof.
  assert (C : vm_instructions (st_vm p_state) = p_code) by (vm_compute; reflexivity).
  split.
  - split; [vm_compute; reflexivity|]. split; [reflexivity|]. split; [reflexivity|]. unfold wf_type. lia.
  - intros b z Hb Ht Hz. unfold about_to_run. rewrite C. split; [vm_compute; reflexivity|]. split; [reflexivity|].
    split; [reflexivity|]. split; [reflexivity|]. split; [reflexivity|].
    constructor; [|constructor; [|constructor]].
    + exists TBool. split; [|auto]. split; [reflexivity|]. split; [reflexivity|exact Logic.I].
    + exists (TUint 8). split; [split; [reflexivity|split; [reflexivity|unfold wf_type; lia]]|].
      split; [|reflexivity]. split; cbn; lia.
Qed.
Example C21_example_runs : forall b, b = cv_True \/ b = cv_False ->
  match run 1000 (p_machine b 3) with
  | Some (Err x) => ee_code x = x_pop_call /\ vm_stack (ee_machine x) = [CV (TUint 8) (if cv_int b =? 0 then 15 else 6)]
  | _ => False
  end.
Proof. intros b [-> | ->]; vm_compute; auto. Qed.

(** * Assumptions of the theorems above *)
Print Assumptions C30_calls_partial.
Print Assumptions C30_expressions_partial.
Print Assumptions C27_statements_partial.
Print Assumptions C28_returns_partial.
Print Assumptions C29_folding_partial.
Print Assumptions C29_code_partial.
Print Assumptions C21_accepted_partial.
Print Assumptions C26_accepted_value_partial.
Print Assumptions C26_accepted_error_partial.
Print Assumptions C25_accepted_diverges_partial.
