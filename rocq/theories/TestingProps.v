(** C76: when the tests of files pass. *)
From Coq Require Import ZArith Ascii String List Bool Lia.
From Verif Require Import Prelude Text Types Ops Tables TablesProps Tokenizer TokenizerProofs Parse ParseProps VM Analyze AnalyzeGeneric NameLookup Convert FrontEnd Diagnostics ErrorPrint Tool ToolProps Testing TestingSpec TestingProofs.
Import ListNotations.
Open Scope string_scope.
Open Scope list_scope.
Open Scope Z_scope.

(** A test of success passes exactly if the file can be read and compiles up to the stage. *)
Theorem C76_success : forall run_fuel fuel located colors w file until,
  test_for_success run_fuel fuel located colors w file until = Some (Ok true) <->
  exists source, reads w file source /\ passed run_fuel fuel until source.
Proof. exact for_success. Qed.

(** With an introspection, exactly if moreover the program is as the introspection says. *)
Theorem C76_introspection : forall run_fuel fuel located colors w file f,
  test_for_success_then_introspect run_fuel fuel located colors w file f = Some (Ok true) <->
  exists source l, reads w file source /\ accepted run_fuel fuel source l /\ f l = Ok true.
Proof. exact for_introspection. Qed.

(** A test for an error of the tokenizer passes exactly if there is one with that code. *)
Theorem C76_tokenize_error : forall run_fuel fuel located colors w file c,
  test_for_tokenize_error run_fuel fuel located colors w file c = Some (Ok true) <->
  exists source e, reads w file source /\ tokenize_ends source e /\ te_code e = c.
Proof. exact for_tokenize_error. Qed.

Lemma agrees_rule : forall (x : option grammar_rule) r,
  match x with Some r' => if rule_eq_dec r r' then true else false | None => true end = true <->
  agrees x (fun r' => r = r').
Proof.
  intros [r'|] r; unfold agrees; [|split; [discriminate | reflexivity]].
  destruct (rule_eq_dec r r') as [->|Ne].
  - split; [|reflexivity]. intros _ a E. congruence.
  - split; [discriminate|]. intros H. destruct (Ne (H r' eq_refl)).
Qed.
Lemma agrees_type : forall (x : option token_type) t,
  match x with Some t' => token_type_eqb t t' | None => true end = true <-> agrees x (fun t' => t = t').
Proof.
  intros [t'|] t; unfold agrees; [|split; [discriminate | reflexivity]]. rewrite token_type_eqb_eq.
  split; [intros -> a E; congruence | intros H; exact (H t' eq_refl)].
Qed.
Lemma agrees_line : forall (x : option nat) n, x <> Some 0%nat ->
  match x with Some m => Nat.eqb n (m - 1) | None => true end = true <-> agrees x (fun m => (n + 1 = m)%nat).
Proof.
  intros [[|m]|] n Z; unfold agrees; [contradiction | |split; [discriminate | reflexivity]].
  rewrite Nat.eqb_eq. split; [intros H a E; injection E as <-; lia | intros H; specialize (H _ eq_refl); lia].
Qed.

(** A test for an error of the parser passes exactly if there is one with the expected rule, and the token at which
    parsing stopped is on the expected line and of the expected type. At the end of the program there is no such token;
    then the line is taken to be the first one, and the type that of identifiers. *)
Theorem C76_parse_error_partial : forall run_fuel fuel located colors w file x,
  test_for_parse_error run_fuel fuel located colors w file x = Some (Ok true) <->
  px_line x <> Some 0%nat /\
  exists source ts e, reads w file source /\ parse_ends source ts e /\
    agrees (px_rule x) (fun r => pe_rule e = r) /\
    ((pe_rest e = [] /\ agrees (px_line x) (fun n => n = 1%nat) /\ agrees (px_type x) (fun k => k = tk_identifier)) \/
     (exists t, stopped_at ts e t /\
       agrees (px_line x) (fun n => (line (tok_pos t) + 1)%nat = n) /\ agrees (px_type x) (fun k => tok_type t = k))).
Proof.
  intros run_fuel fuel located colors w file x. rewrite for_parse_error.
  assert (K : px_line x <> Some 0%nat -> forall source ts e, parse_ends source ts e ->
    (parse_expected x ts e = true <-> agrees (px_rule x) (fun r => pe_rule e = r) /\
    ((pe_rest e = [] /\ agrees (px_line x) (fun n => n = 1%nat) /\ agrees (px_type x) (fun k => k = tk_identifier)) \/
     (exists t, stopped_at ts e t /\
       agrees (px_line x) (fun n => (line (tok_pos t) + 1)%nat = n) /\ agrees (px_type x) (fun k => tok_type t = k))))).
  { intros Z source ts e [T P]. unfold parse_expected.
    rewrite !andb_true_iff, agrees_rule, agrees_type, (agrees_line _ _ Z), and_assoc. apply and_iff_compat_l.
    destruct (C53_answers_partial source ts T) as [(p & Q)|[(e' & before & Q & S0)|(Q & _)]]; [congruence | | congruence].
    assert (e' = e) by congruence. subst e'.
    assert (L : (length (pe_rest e) <= length ts)%nat).
    { apply (f_equal (@length _)) in S0. unfold lexemes in S0. rewrite map_length, app_length in S0. lia. }
    unfold fail_token. destruct (pe_rest e) as [|y rest] eqn:R.
    - cbn [length]. rewrite Nat.sub_0_r. rewrite (proj2 (nth_error_None ts (length ts))) by lia.
      cbn [tok_pos line tok_type]. split.
      + intros [A B]. left. split; [reflexivity|].
        split; [intros n E; symmetry; exact (A n E) | intros k E; symmetry; exact (B k E)].
      + intros [(_ & A & B)|(t & (b & a & _ & E) & _)].
        * split; [intros n E; symmetry; exact (A n E) | intros k E; symmetry; exact (B k E)].
        * rewrite R in E. discriminate E.
    - destruct (nth_error ts (length ts - length (y :: rest))) as [t|] eqn:N0.
      2: { apply nth_error_None in N0. cbn [length] in *. lia. }
      apply nth_error_split in N0. destruct N0 as (b & a & E & Lb).
      assert (La : length (y :: rest) = S (length a)).
      { rewrite E in Lb, L. rewrite app_length in Lb, L. cbn [length] in *. lia. }
      split.
      + intros [A B]. right. exists t. split; [|split; assumption]. exists b, a. rewrite R. auto.
      + intros [(Bad & _)|(t' & (b' & a' & E' & La') & A & B)]; [discriminate Bad|].
        rewrite R in La'. assert (Lb' : length b = length b').
        { rewrite E in E'. apply (f_equal (@length _)) in E'. rewrite !app_length in E'. cbn [length] in *. lia. }
        assert (t' = t) as ->; [|split; assumption].
        { rewrite E in E'. revert b' Lb' E'. clear. induction b as [|z b IH]; intros [|z' b'] Lb E'; try discriminate Lb.
          - cbn in E'. congruence.
          - cbn in E'. apply (IH b'); [cbn in Lb; lia | congruence]. } }
  split; intros (Z & source & ts & e & R & P & H); (split; [exact Z|]); exists source, ts, e; (split; [exact R|]); (split; [exact P|]);
    apply (K Z source ts e P); exact H.
Qed.

(** A test for an error of the analysis passes exactly if there is one with the expected code, on the expected line, and
    with a cause on the expected line. *)
Theorem C76_analysis_error : forall run_fuel fuel located colors w file x,
  test_for_analysis_error run_fuel fuel located colors w file x = Some (Ok true) <->
  agrees (ax_fail_line x) (fun n => 0 < n) /\ agrees (ax_cause_line x) (fun n => 0 < n) /\
  exists source p e, reads w file source /\ analysis_ends run_fuel fuel source p e /\
    has_code (ax_code x) (located p e) /\
    agrees (ax_fail_line x) (on_line (di_pos (ae_fail (located p e)))) /\
    agrees (ax_cause_line x) (on_line (cause_pos (located p e))).
Proof.
  intros run_fuel fuel located colors w file x. rewrite for_analysis_error.
  assert (P : forall l, line_positive l = true <-> agrees l (fun n => 0 < n)).
  { intros [n|]; unfold agrees; cbn; [|split; [discriminate | reflexivity]]. rewrite Z.ltb_lt.
    split; [intros H a E; injection E as <-; exact H | intros H; exact (H n eq_refl)]. }
  rewrite !P. setoid_rewrite analysis_expected_true. reflexivity.
Qed.

(** No file passes tests of two kinds, and the code of an error is the only one for which the test passes. *)
Theorem C76_one_kind : forall run_fuel fuel located colors w file c x y,
  let success := exists s, stage_leb stage_analyze s = true /\
    test_for_success run_fuel fuel located colors w file s = Some (Ok true) in
  let bad_token := test_for_tokenize_error run_fuel fuel located colors w file c = Some (Ok true) in
  let bad_syntax := test_for_parse_error run_fuel fuel located colors w file x = Some (Ok true) in
  let bad_program := test_for_analysis_error run_fuel fuel located colors w file y = Some (Ok true) in
  ~ (success /\ bad_token) /\ ~ (success /\ bad_syntax) /\ ~ (success /\ bad_program) /\
  ~ (bad_token /\ bad_syntax) /\ ~ (bad_token /\ bad_program) /\ ~ (bad_syntax /\ bad_program) /\
  (forall c', bad_token -> test_for_tokenize_error run_fuel fuel located colors w file c' = Some (Ok true) -> c = c').
Proof.
  intros run_fuel fuel located colors w file c x y. cbv zeta.
  rewrite for_tokenize_error, for_parse_error, for_analysis_error.
  assert (S0 : (exists s, stage_leb stage_analyze s = true /\
      test_for_success run_fuel fuel located colors w file s = Some (Ok true)) ->
    exists source l, reads w file source /\ accepted run_fuel fuel source l).
  { intros (s & L & H). apply for_success in H. destruct H as (source & R & H). exists source.
    destruct s; try discriminate L; cbn in H; destruct H as (l & H); exists l; auto. }
  assert (U : forall a b, reads w file a -> reads w file b -> a = b) by (intros a b A B; unfold reads in *; congruence).
  unfold parse_ends, analysis_ends, accepted, parsed, tokenized, tokenize_ends in *.
  repeat split.
  - intros [H (b & e & R & T & _)]. destruct (S0 H) as (a & l & R' & q & (ts & T' & _) & _). rewrite (U _ _ R' R) in T'. congruence.
  - intros [H (_ & b & ts & e & R & [T P] & _)]. destruct (S0 H) as (a & l & R' & q & (ts' & T' & P') & _).
    rewrite (U _ _ R' R) in *. congruence.
  - intros [H (_ & _ & b & q & e & R & [(ts & T & P) A] & _)]. destruct (S0 H) as (a & l & R' & q' & (ts' & T' & P') & A').
    rewrite (U _ _ R' R) in *. congruence.
  - intros [(b & e & R & T & _) (_ & b' & ts & e' & R' & [T' _] & _)]. rewrite (U _ _ R' R) in *. congruence.
  - intros [(b & e & R & T & _) (_ & _ & b' & q & e' & R' & [(ts & T' & _) _] & _)]. rewrite (U _ _ R' R) in *. congruence.
  - intros [(_ & b & ts & e & R & [T P] & _) (_ & _ & b' & q & e' & R' & [(ts' & T' & P') _] & _)].
    rewrite (U _ _ R' R) in *. congruence.
  - intros c' H0 H. apply for_tokenize_error in H0, H. destruct H0 as (b & e & R & T & E). destruct H as (b' & e' & R' & T' & E').
    unfold tokenize_ends in T, T'. rewrite (U _ _ R' R) in *. congruence.
Qed.

(** Files for the examples. *)
Definition sample_world (file source : text) : world :=
  World (fun path => if text_eqb path (str "test/" ++ file) then Content source else Unopenable) (fun _ => Uncreatable).
Definition sample_located (e : ErrorPrint.analysis_error) : list pdecl -> tool_error -> ErrorPrint.analysis_error :=
  fun _ _ => e.
Definition nowhere : debug_info := DebugInfo dc_program None [].

(** What a reader expects: a test with an expected line does not pass with an error that is on no such line. This is
    false at the end of a program. *)
Definition newline_text : text := [ch_newline].
Theorem C76_line_refuted : exists source x ts e,
  parse_ends source ts e /\ px_line x = Some 1%nat /\ px_type x = Some tk_identifier /\
  Forall (fun t => (2 <= line (tok_pos t))%nat) ts /\
  forall run_fuel fuel located colors,
    test_for_parse_error run_fuel fuel located colors (sample_world (str "a.bms") source) (str "a.bms") x = Some (Ok true).
Proof.
  set (source := newline_text ++ newline_text ++ str "const x = 1").
  assert (H : exists ts e, parse_ends source ts e /\ Forall (fun t => (2 <= line (tok_pos t))%nat) ts /\ pe_rest e = []).
  { eexists. eexists. split; [split|]. 
    - vm_compute. reflexivity.
    - vm_compute. reflexivity.
    - split; [|reflexivity]. repeat (apply Forall_cons; [cbn; lia|]). apply Forall_nil. }
  destruct H as (ts & e & P & F & R).
  exists source, (Parse_Expectations None (Some 1%nat) (Some tk_identifier)), ts, e.
  split; [exact P|]. split; [reflexivity|]. split; [reflexivity|]. split; [exact F|]. intros run_fuel fuel located colors.
  apply C76_parse_error_partial. split; [discriminate|].
  exists source, ts, e. split; [unfold reads; vm_compute; reflexivity|]. split; [exact P|].
  split; [intros r E; discriminate E|]. left. split; [exact R|]. split; intros n E; cbn in E; congruence.
Qed.

(** An error of an evaluation does not pass the test that expects [evaluation_error]: the test fails an assertion. *)
Theorem C76_bare_code_refuted : exists source p e a,
  analysis_ends 100 100 source p (te_analysis (ge_analysis (a_evaluation a))) /\
  e = evaluation_error_at a nowhere None /\ code_of e = ac_evaluation_error /\
  forall colors, test_for_analysis_error 100 100 (sample_located e) colors (sample_world (str "a.bms") source) (str "a.bms")
    (Analysis_Expectations (expect_code ac_evaluation_error) None None) = Some Abort.
Proof.
  exists (str "const x = 1 / 0;"). eexists. eexists. eexists.
  split; [split; [eexists; split|]|].
  { vm_compute. reflexivity. }
  { vm_compute. reflexivity. }
  { vm_compute. reflexivity. }
  split; [reflexivity|]. split; [reflexivity|]. intros [|]; vm_compute; reflexivity.
Qed.

(** No expectation is met by an error of an execution: the place where its kind should be was not written. *)
Theorem C76_execution_refuted : exists source p e c,
  analysis_ends 100 100 source p (te_analysis (ge_analysis (a_execution c))) /\
  e = execution_error_at c None nowhere None /\ code_of e = ac_execution_error /\
  (forall run_fuel fuel x colors, test_for_analysis_error run_fuel fuel (sample_located e) colors
     (sample_world (str "a.bms") source) (str "a.bms") x <> Some (Ok true)) /\
  (forall k colors, test_for_analysis_error 100 100 (sample_located e) colors (sample_world (str "a.bms") source) (str "a.bms")
     (Analysis_Expectations (expect_execution k) None None) = Some UB).
Proof.
  exists (str "function f() -> Int { let y: Int; return y; } const x = f();"). eexists. eexists. eexists.
  split; [split; [eexists; split|]|].
  { vm_compute. reflexivity. }
  { vm_compute. reflexivity. }
  { vm_compute. reflexivity. }
  split; [reflexivity|]. split; [reflexivity|]. split.
  - intros run_fuel fuel x colors H. apply C76_analysis_error in H.
    destruct H as (_ & _ & source & p & e & _ & _ & H & _). exact H.
  - intros k [|]; vm_compute; reflexivity.
Qed.

Example C76_example :
  let w t := sample_world (str "a.bms") t in
  let any := sample_located (AnalysisError (d_plain ac_condition_not_bool) ex_none (DebugInfo dc_type (Some (Pos 1 0 5)) []) None None None) in
  test_for_success 100 100 any false (w (str "const x = 1;")) (str "a.bms") stage_analyze = Some (Ok true) /\
  test_for_success 100 100 any false (w (str "const x = 1;")) (str "b.bms") stage_analyze = Some (Ok false) /\
  test_for_success 100 100 any false (w (str "const x = ;")) (str "a.bms") stage_tokenize = Some (Ok true) /\
  test_for_success 100 100 any false (w (str "const x = ;")) (str "a.bms") stage_parse = Some (Ok false) /\
  test_for_parse_error 100 100 any false (w (str "const x = ;")) (str "a.bms")
    (Parse_Expectations None (Some 1%nat) (Some tk_semicolon)) = Some (Ok true) /\
  test_for_parse_error 100 100 any false (w (str "const x = ;")) (str "a.bms")
    (Parse_Expectations None (Some 2%nat) (Some tk_semicolon)) = Some (Ok false) /\
  test_for_analysis_error 100 100 any false (w (newline_text ++ str "const x = if 1 then 2 else 3;")) (str "a.bms")
    (Analysis_Expectations (expect_code ac_condition_not_bool) (Some 2) None) = Some (Ok false) /\
  test_for_analysis_error 100 100 any false (w (newline_text ++ str "const x = 1 if 2 else 3;")) (str "a.bms")
    (Analysis_Expectations (expect_code ac_condition_not_bool) (Some 2) None) = Some (Ok true) /\
  test_for_analysis_error 100 100 any false (w (newline_text ++ str "const x = 1 if 2 else 3;")) (str "a.bms")
    (Analysis_Expectations (expect_code ac_condition_not_bool) (Some 1) None) = Some (Ok false).
Proof. vm_compute. repeat split; reflexivity. Qed.

(** * Assumptions of the theorems above *)
Print Assumptions C76_success.
Print Assumptions C76_introspection.
Print Assumptions C76_tokenize_error.
Print Assumptions C76_parse_error_partial.
Print Assumptions C76_analysis_error.
Print Assumptions C76_one_kind.
Print Assumptions C76_line_refuted.
Print Assumptions C76_bare_code_refuted.
Print Assumptions C76_execution_refuted.
