(** C59: What the analysis finds out about a program, and what its code computes, is what the source means. *)
From Coq Require Import ZArith Ascii String List Bool Lia.
From Verif Require Import Prelude Text Types Tables Ops OpsSpec AbsOps Annotations LinMap VM VMSpec Ast Codegen SourceSem CodegenSpec Annotated Analyze Programs AnalyzeProofs
  AcceptedSpec AcceptedProps PrintSpec NameLookup Sources Convert ConvertSpec ConvertSources FrontEnd FrontEndProps ProgramSem ProgramMono ProgramProofs.
Import ListNotations.
Open Scope string_scope.
Open Scope list_scope.
Open Scope Z_scope.

Definition table_in (c : compiled) : positive -> option func := table_of (c_declarations c).
Definition items_in (c : compiled) : list item := items_of (c_declarations c).
(** What is known before the program of a source text runs. *)
Definition known_in (c : compiled) (effort : nat) : statics :=
  statics_of (table_in c) (declaration_of (table_in c) (items_in c)) effort.


(** ** C59: Analysis and code agree with the source *)

(** Full statement: for every accepted program the meaning of its functions that is used in the statements about
    generated code, which takes types and values of constants from what the analysis has recorded, is the meaning
    of the source program, in which nothing is recorded.
    Proved here for programs whose code needs no implicit conversions.
    Missing: other programs ([C59_value_refuted]), generic functions, [requires] clauses, calls in the types of
    parameters and results, functions that do not end in [return]. *)
Theorem C59_meaning_partial : forall consts table items st, passes consts table items st -> direct_program st ->
  instruction_count (vm_instructions (st_vm st)) < 2 ^ 62 ->
  exists enough, forall effort, (enough <= effort)%nat -> forall fuel n args,
  program_call table items effort fuel n args = meaning st fuel n args.
Proof. exact program_meaning. Qed.

(** Every type the analysis records for a constant, variable or parameter is the one it has in the source. *)
Theorem C59_type_partial : forall consts table items st, passes consts table items st -> direct_program st ->
  instruction_count (vm_instructions (st_vm st)) < 2 ^ 62 ->
  forall p v, st_values st p = Some v ->
  exists enough, forall effort, (enough <= effort)%nat ->
  static_type (statics_of table (declaration_of table items) effort) p = ret (av_type v).
Proof. exact program_type. Qed.

(** Every value the analysis records for a constant is the one it has in the source. *)
Theorem C59_constant_partial : forall consts table items st, passes consts table items st -> direct_program st ->
  instruction_count (vm_instructions (st_vm st)) < 2 ^ 62 ->
  forall p v, constants_of (st_values st) p = Some v ->
  exists enough, forall effort, (enough <= effort)%nat ->
  static_value (statics_of table (declaration_of table items) effort) p = ret v.
Proof. exact program_constant. Qed.

(** Every static assertion of an accepted program is true in the source. *)
Theorem C59_assertion_partial : forall consts table items st, passes consts table items st -> direct_program st ->
  instruction_count (vm_instructions (st_vm st)) < 2 ^ 62 ->
  forall e, asserted table items e ->
  exists enough, forall effort, (enough <= effort)%nat ->
  ev_static (statics_of table (declaration_of table items) effort) e = ret cv_True.
Proof. exact program_asserted. Qed.

(** From the source text to the machine: code that is made for a source text computes what the source means. *)
Theorem C59_run_partial : forall run_fuel fuel source c, compile run_fuel fuel source = Some (Ok c) ->
  simple_program (c_tree c) = true -> no_generics (c_tree c) -> direct_program (c_state c) ->
  instruction_count (vm_instructions (st_vm (c_state c))) < 2 ^ 62 ->
  exists enough, forall effort, (enough <= effort)%nat ->
  forall n f t args m, analysed_function (c_state c) n f t -> about_to_run (c_state c) f args m ->
  (forall k v, program_call (table_in c) (items_in c) effort (S k) n args = Some (Ok v) ->
     wf_value v /\ cv_type v = t
     /\ exists j x, run j m = Some (Err x) /\ ee_code x = x_pop_call /\ vm_stack (ee_machine x) = [v])
  /\ (forall k e code, program_call (table_in c) (items_in c) effort (S k) n args = Some (Err e) -> reported e = Some code ->
       exists j x, run j m = Some (Err x) /\ ee_code x = code)
  /\ ((forall k, program_call (table_in c) (items_in c) effort (S k) n args = None) -> forall j, run j m = None)
  /\ (forall j, run j m = Some Abort \/ run j m = Some UB ->
       exists k r, program_call (table_in c) (items_in c) effort k n args = Some r /\ ~ defined r).
Proof.
  intros rf fuel source c H S G D Z. destruct (C57_accepted_partial _ _ _ _ H S G) as (consts & P).
  destruct (program_meaning _ _ _ _ P D Z) as (enough & M). exists enough. intros effort He n f t args m Hf Hm.
  destruct (C57_run_partial _ _ _ _ H S G D n f t args m Hf Hm) as (R1 & R2 & R3 & R4).
  unfold table_in, items_in. split; [|split; [|split]].
  - intros k v E. rewrite (M effort He) in E. eauto.
  - intros k e code E. rewrite (M effort He) in E. eauto.
  - intros E. apply R3. intros k. rewrite <- (M effort He). apply E.
  - intros j E. destruct (R4 j E) as (k & r & A & B). exists k, r. split; [|exact B]. rewrite (M effort He). exact A.
Qed.

(** The conversion of [x] to [Uint(8)] is in the source, but not in the code: the analysis runs the code, records
    [true] for [c], and accepts an assertion that is false. *)
Definition unconverted : string :=
  "function f(x: Int) -> Bool { let y: Uint(8) = x; return y + y != 144; } " ++
  "const c = f(200); static_assert(f(200)); ".
Definition unconverted_program : compiled := compiled_from (compile 1000 20 (str unconverted)).

Theorem C59_value_refuted : exists source c p e,
  compile 1000 20 (str source) = Some (Ok c) /\ simple_program (c_tree c) = true
  /\ source = unconverted
  /\ constants_of (st_values (c_state c)) p = Some cv_True
  /\ asserted (table_in c) (items_in c) e
  /\ forall effort, (20 <= effort)%nat ->
       static_value (known_in c effort) p = ret cv_False /\ ev_static (known_in c effort) e = ret cv_False.
Proof.
  exists unconverted, unconverted_program, 4%positive,
    (ECall None (str "f") (Some (LNode DFunction 1)) false [ELiteral None (str "200") tk_decimal_literal]).
  split; [apply compiled_result; vm_compute; reflexivity|]. split; [vm_compute; reflexivity|]. split; [reflexivity|].
  split; [vm_compute; reflexivity|]. split.
  { exists None. left. vm_compute. auto. }
  intros effort He. unfold known_in.
  pose proof (statics_mono (table_in unconverted_program)
    (declaration_of (table_in unconverted_program) (items_in unconverted_program)) 20 effort He) as L.
  split.
  - eapply le_some; [apply L|]. vm_compute. reflexivity.
  - eapply le_some; [eapply ev_static_mono; exact L|]. vm_compute. reflexivity.
Qed.

(** The program of the other examples. *)
Definition after (n : positive) : func :=
  match st_functions (c_state example_compiled) n with
  | Some f => f
  | None => Func [] n None [] (Type_Node None tt_Void None None) None (SBlock None []) false None unanalyzed
  end.
Definition sum_after : func := Eval vm_compute in after 1.
Definition twice_after : func := Eval vm_compute in after 5.
Example C59_example : direct_program (c_state example_compiled)
  /\ instruction_count (vm_instructions (st_vm (c_state example_compiled))) < 2 ^ 62
  /\ (forall effort, (20 <= effort)%nat ->
        static_value (known_in example_compiled effort) 8%positive = ret (CV TInt 6)
        /\ static_value (known_in example_compiled effort) 9%positive = ret (CV (TUint 8) 144))
  /\ program_call (table_in example_compiled) (items_in example_compiled) 20 20 5 [cv_True; CV (TUint 8) 200]
     = Some (Ok (CV (TUint 8) 144)).
Proof.
  split; [|split; [vm_compute; reflexivity|split]].
  - intros n f H. destruct C57_example as (C & S & G & _).
    destruct (C57_accepted_partial _ _ _ _ C S G) as (consts & R & rf & fuel & items' & A).
    destruct (program_ok _ _ _ _ _ _ _ R A) as (_ & D & _).
    destruct (table_of (c_declarations example_compiled) n) as [g|] eqn:E.
    + assert (N : n = 1%positive \/ n = 5%positive).
      { unfold table_of in E. apply find_some in E as [I E]. apply Pos.eqb_eq in E. subst n.
        assert (F : map f_self (functions_of (c_declarations example_compiled)) = [1; 5]%positive) by (vm_compute; reflexivity).
        apply (in_map f_self) in I. rewrite F in I. destruct I as [I|[I|[]]]; auto. }
      destruct N as [-> | ->].
      * assert (F : st_functions (c_state example_compiled) 1%positive = Some sum_after) by (vm_compute; reflexivity).
        rewrite F in H. injection H as <-. cbn. intuition.
      * assert (F : st_functions (c_state example_compiled) 5%positive = Some twice_after) by (vm_compute; reflexivity).
        rewrite F in H. injection H as <-. cbn. intuition.
    + apply D in E. rewrite E in H. discriminate H.
  - intros effort He. unfold known_in.
    pose proof (statics_mono (table_in example_compiled)
      (declaration_of (table_in example_compiled) (items_in example_compiled)) 20 effort He) as L.
    split; (eapply le_some; [apply L|]); vm_compute; reflexivity.
  - vm_compute. reflexivity.
Qed.

(** * Assumptions of the theorems above *)
Print Assumptions C59_meaning_partial.
Print Assumptions C59_type_partial.
Print Assumptions C59_constant_partial.
Print Assumptions C59_assertion_partial.
Print Assumptions C59_run_partial.
Print Assumptions C59_value_refuted.
