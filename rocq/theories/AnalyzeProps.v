(** Final theorems about the analysis of whole programs: properties C21 and C27 to C30. *)
From Coq Require Import ZArith Ascii String List Bool Lia.
From Verif Require Import Prelude Types Ops OpsSpec Text Tables AbsOps Literals LinMap LinMapSpec LinMapProofs VM VMSpec Ast Codegen SourceSem
  CodegenSpec Analyze Annotated AnnotatedProofs.
Import ListNotations.
Open Scope string_scope.
Open Scope list_scope.
Open Scope Z_scope.

(** ** Programs that are accepted and go wrong *)

Definition n_lit (t : string) : expr := ELiteral None (str t) tk_decimal_literal.
Definition n_true : expr := ELiteral None (str "true") tk_keyword_true.
Definition n_false : expr := ELiteral None (str "false") tk_keyword_false.
Definition n_bin (op : expr_kind) (l r : expr) : expr := EBinary None op l r.
Definition n_call (n : positive) (args : list expr) : expr :=
  ECall None (str "f") (Some (LNode DFunction n)) false args.
Definition n_var (n : positive) : expr := EId None (str "v") (Some (LNode DLet n)) None.
Definition n_par (n : positive) : expr := EId None (str "p") (Some (LParameter n)) None.
Definition n_Int : type_node := Type_Node None tt_Int None None.
Definition n_Bool : type_node := Type_Node None tt_Bool None None.
Definition n_Uint (w : string) : type_node := Type_Node None tt_Uint (Some (n_lit w)) None.
Definition n_fun (n : positive) (params : list (positive * type_node)) (ret : type_node) (body : list stmt)
  : func :=
  Func (str "f") n None (map (fun p => Param (str "p") (fst p) (snd p)) params) ret None (SBlock None body)
    false None unanalyzed.
Definition n_let (n : positive) (t : type_node) (e : option expr) : stmt := SLet None (str "v") n (Some t) e.
Definition n_ret (e : expr) : stmt := SControl None ctl_return (Some e).
Definition n_constant (n : positive) (t : option type_node) (e : expr) : item :=
  Item_Statement (SConst None (str "c") n t e).
Definition n_table (l : list func) (n : positive) : option func := find (fun f => Pos.eqb n (f_self f)) l.

(** The result of the analysis of an accepted program. *)
Definition accepted (r : option (outcome analysis_error (list item * state))) : bool :=
  match r with Some (Ok _) => true | _ => false end.
Definition items_after (r : option (outcome analysis_error (list item * state))) : list item :=
  match r with Some (Ok (l, _)) => l | _ => [] end.
Definition state_after (r : option (outcome analysis_error (list item * state))) : state :=
  match r with Some (Ok (_, st)) => st | _ => State (fun _ => None) (fun _ => None) vm_new [] end.
Lemma accepted_result : forall r, accepted r = true -> r = Some (Ok (items_after r, state_after r)).
Proof. intros [[[l st]|e| |]|] H; try discriminate. reflexivity. Qed.
Lemma accepted_some : forall r, accepted r = true -> exists x, r = Some (Ok x).
Proof. intros r H. eexists. apply accepted_result. exact H. Qed.
Ltac accepts := first [apply accepted_result | apply accepted_some]; vm_compute; reflexivity.

(** [fn f() -> Int { let x: Int; return x; }] is accepted, and calling it fails because there is no value. *)
Definition p_uninitialized : func := n_fun 1 [] n_Int [n_let 2 n_Int None; n_ret (n_var 2)].
Theorem C21_uninitialized_refuted : exists table items c,
  (exists r, analyze_program 100 10 table items = Some (Ok r))
  /\ analyze_program 100 10 table (items ++ [n_constant 3 None (n_call 1 [])]) = Some (Err (a_execution c))
  /\ c = x_load_uninitialized.
Proof.
  exists (n_table [p_uninitialized]), [Item_Function 1]. eexists.
  split; [accepts|]. split; [vm_compute; reflexivity|reflexivity].
Qed.

(** [fn f(b: Bool) -> Int { if b { return 1; } }] is accepted, and calling it with [true] fails because the
    jump that is not taken leads out of the program. *)
Definition p_no_return : func :=
  n_fun 1 [(2%positive, n_Bool)] n_Int [SIf None (n_par 2) (SBlock None [n_ret (n_lit "1")]) None].
Theorem C21_jump_refuted : exists table items c,
  (exists r, analyze_program 100 10 table items = Some (Ok r))
  /\ analyze_program 100 10 table (items ++ [n_constant 3 None (n_call 1 [n_true])]) = Some (Err (a_execution c))
  /\ c = x_jump_out_of_program.
Proof.
  exists (n_table [p_no_return]), [Item_Function 1]. eexists.
  split; [accepts|]. split; [vm_compute; reflexivity|reflexivity].
Qed.

(** [fn f() -> Uint(8) { let x: Uint(8) = 1000; return x; } const y = f();]: the machine stores the [Int]
    1000 in [x], *)
Definition p_unconverted : func :=
  n_fun 1 [] (n_Uint "8") [n_let 2 (n_Uint "8") (Some (n_lit "1000")); n_ret (n_var 2)].
Theorem C27_variable_refuted : exists table items items' st,
  analyze_program 100 10 table items = Some (Ok (items', st))
  /\ st_values st 2%positive = Some (AV (TUint 8) None)
  /\ exists k m, cycles k (vm_reset (st_vm st)) m /\ current (vm_frames m) 2%positive = Some (CV TInt 1000).
Proof.
  exists (n_table [p_unconverted]), [Item_Function 1; n_constant 3 None (n_call 1 [])].
  eexists. eexists. split; [accepts|]. split; [vm_compute; reflexivity|].
  exists 2%nat. eexists. split.
  - eapply cycles_more; [vm_compute; reflexivity|]. eapply cycles_more; [vm_compute; reflexivity|]. apply cycles_zero.
  - vm_compute. reflexivity.
Qed.

(** and so the recorded type of the expression [x] in the [return] statement is not the type of its value,
    which becomes the value of [y]. *)
Theorem C30_value_refuted : exists table items items' st f,
  analyze_program 100 10 table items = Some (Ok (items', st))
  /\ st_functions st 1%positive = Some f
  /\ denotes (f_return f) (TUint 8)
  /\ st_values st 3%positive = Some (AV TInt (Some 1000)).
Proof.
  exists (n_table [p_unconverted]), [Item_Function 1; n_constant 3 None (n_call 1 [])].
  eexists. eexists. eexists. split; [accepts|]. split; [vm_compute; reflexivity|].
  split; [|vm_compute; reflexivity]. split; [reflexivity|]. split; [reflexivity|]. unfold wf_type. lia.
Qed.

(** [fn f() -> Uint(8) { let x: Uint(8) = 1; return ~x; }] is accepted, and calling it fails with a type
    error. *)
Definition p_complement : func :=
  n_fun 1 [] (n_Uint "8") [n_let 2 (n_Uint "8") (Some (n_lit "1")); n_ret (EPrefix None bitwise_not (n_var 2))].
Theorem C30_type_error_refuted : exists table items,
  (exists r, analyze_program 100 10 table items = Some (Ok r))
  /\ analyze_program 100 10 table (items ++ [n_constant 3 None (n_call 1 [])])
     = Some (Err (a_execution (x_evaluation type_error))).
Proof.
  exists (n_table [p_complement]), [Item_Function 1].
  split; [accepts|vm_compute; reflexivity].
Qed.

(** [fn f(b: Bool) -> Int { if b { return 1; } } fn g() -> Int { return 7; }]: when the code of [g] follows
    that of [f], then [f(false)] runs into it, and yields 7. *)
Definition p_next : func := n_fun 4 [] n_Int [n_ret (n_lit "7")].
Theorem C28_runs_on_refuted : exists table items items' st,
  analyze_program 100 10 table items = Some (Ok (items', st))
  /\ (exists e, call true (st_functions st) (constants_of (st_values st)) 10 1%positive [cv_False] = Some (Err e)
                /\ e = s_no_value)
  /\ In (n_constant 3 None (n_call 1 [n_false])) items
  /\ st_values st 3%positive = Some (AV TInt (Some 7)).
Proof.
  exists (n_table [p_no_return; p_next]),
    [Item_Function 1; Item_Function 4;
     n_constant 5 (Some n_Bool) (n_bin logical_or n_true (n_bin less_than (n_call 1 [n_true]) (n_lit "1")));
     n_constant 6 None (n_call 4 []); n_constant 3 None (n_call 1 [n_false])].
  eexists. eexists. split; [accepts|]. split; [eexists; split; vm_compute; reflexivity|].
  split; [cbn; tauto|vm_compute; reflexivity].
Qed.

(** [fn f() -> Int { } const y = f();]: there is no code that could be called, and an assertion fails. *)
Theorem C28_no_code_refuted : exists table items,
  (exists r, analyze_program 100 10 table items = Some (Ok r))
  /\ analyze_program 100 10 table (items ++ [n_constant 3 None (n_call 1 [])]) = Some Abort.
Proof.
  exists (n_table [n_fun 1 [] n_Int []]), [Item_Function 1].
  split; [accepts|vm_compute; reflexivity].
Qed.

(** [const x: Uint(8) = 256 as Uint(8); fn f() -> Uint(8) { return x; }] is accepted without a value for
    [x], and calling [f] fails because there is none. *)
Definition p_const_use : func := n_fun 1 [] (n_Uint "8") [n_ret (EId None (str "c") (Some (LNode DConst 3)) None)].
Theorem C29_constant_without_value_refuted : exists table items items' st,
  analyze_program 100 10 table items = Some (Ok (items', st))
  /\ st_values st 3%positive = Some (AV (TUint 8) None)
  /\ analyze_program 100 10 table (items ++ [n_constant 4 None (n_call 1 [])])
     = Some (Err (a_execution x_load_uninitialized)).
Proof.
  exists (n_table [p_const_use]),
    [n_constant 3 (Some (n_Uint "8")) (EConversion None (n_lit "256") (n_Uint "8")); Item_Function 1].
  eexists. eexists. split; [accepts|]. split; vm_compute; reflexivity.
Qed.

(** * Assumptions of the theorems above *)
Print Assumptions C21_uninitialized_refuted.
Print Assumptions C21_jump_refuted.
Print Assumptions C27_variable_refuted.
Print Assumptions C30_value_refuted.
Print Assumptions C30_type_error_refuted.
Print Assumptions C28_runs_on_refuted.
Print Assumptions C28_no_code_refuted.
Print Assumptions C29_constant_without_value_refuted.
