(** When tests of files pass. *)
From Coq Require Import ZArith Ascii String List Bool Lia.
From Verif Require Import Prelude Text Types Ops Tables TablesProps Tokenizer Parse VM NameLookup Convert FrontEnd Diagnostics ErrorPrint Tool ToolProps Testing TestingSpec.
Import ListNotations.
Open Scope string_scope.
Open Scope list_scope.
Open Scope Z_scope.

Lemma verdict_action : forall a k, verdict_of a k = Some (Ok true) ->
  a = Ok act_SUCCESS \/ (a = Ok act_CONTINUE /\ k = Some (Ok true)).
Proof. intros [[| |]|[]| |] k H; cbn in H; try discriminate H; auto. Qed.

Lemma last_action : forall a, last_of a = Some (Ok true) <-> a = Ok act_SUCCESS.
Proof.
  intros a. split; intros H; [|rewrite H; reflexivity].
  unfold last_of in H. apply verdict_action in H. destruct H as [H|[_ H]]; [exact H | discriminate H].
Qed.

Lemma step_true : forall E A (m : option (outcome E A)) failed k, test_step m failed k = Some (Ok true) <->
  (exists a, m = Some (Ok a) /\ k a = Some (Ok true)) \/ (exists e, m = Some (Err e) /\ failed e = Ok act_SUCCESS).
Proof.
  intros E A m failed k. split.
  - destruct m as [[a|e| |]|]; cbn; intros H; try discriminate H.
    + left. exists a. auto.
    + right. exists e. apply last_action in H. auto.
  - intros [(a & -> & H)|(e & -> & H)]; cbn; [exact H | apply last_action; exact H].
Qed.

Lemma failure_no_success : forall E (m : outcome E text) (P : outcome E action),
  P = (let* _ := m in Ok act_FAILURE) -> P <> Ok act_SUCCESS.
Proof. intros E m P -> H. destruct m; cbn in H; discriminate H. Qed.

Section Tests.

Variables (run_fuel fuel : nat) (located : list pdecl -> tool_error -> ErrorPrint.analysis_error) (colors : bool) (w : world).

Notation test_validity := (test_validity run_fuel fuel located colors w).

(** The four ways to pass, before looking at the policy. *)
Lemma validity : forall file p f, test_validity file p f = Some (Ok true) ->
  @construct Empty_set p = Ok p /\
  exists source, reads w file source /\
  (@done Empty_set p stage_load_file = Ok act_SUCCESS \/
   (@done Empty_set p stage_load_file = Ok act_CONTINUE /\
    ((exists e, tokenize_ends source e /\ tokenize_failed colors p (str "test/" ++ file) source e = Ok act_SUCCESS) \/
     (exists ts, tokenized source ts /\
       (@done Empty_set p stage_tokenize = Ok act_SUCCESS \/
        (@done Empty_set p stage_tokenize = Ok act_CONTINUE /\
         ((exists e, parse_ends source ts e /\ parse_failed colors p (str "test/" ++ file) source ts e = Ok act_SUCCESS) \/
          (exists tree, parse (lexemes source ts) = Some (Ok tree) /\
            (@done Empty_set p stage_parse = Ok act_SUCCESS \/
             (@done Empty_set p stage_parse = Ok act_CONTINUE /\
              ((exists e, analyze run_fuel fuel tree = Some (Err e) /\
                 analysis_failed colors p (str "test/" ++ file) source (located tree e) = Ok act_SUCCESS) \/
               (exists l, analyze run_fuel fuel tree = Some (Ok l) /\
                 (@done Empty_set p stage_analyze = Ok act_SUCCESS \/
                  (@done Empty_set p stage_analyze = Ok act_CONTINUE /\ is_success p = true /\
                   match f with None => True | Some g => g l = Ok true end)))))))))))))).
Proof.
  intros file p f H. unfold Testing.test_validity in H.
  destruct (@construct Empty_set p) as [q|[]| |] eqn:C; try discriminate H.
  assert (q = p) as ->.
  { destruct p; cbn in C; unfold assert_then in C;
      repeat match type of C with context [if ?b then _ else _] => destruct b end; congruence. }
  split; [reflexivity|].
  destruct (input w (str "test/" ++ file)) as [|t|] eqn:Eq; try discriminate H.
  rewrite C72_reads in H by lia. exists t. split; [exact Eq|].
  apply verdict_action in H. destruct H as [H|[D0 H]]; [left; exact H|right]. split; [exact D0|].
  apply step_true in H. destruct H as [(ts & T & H)|(e & T & H)]; [right | left; exists e; auto].
  exists ts. split; [exact T|].
  apply verdict_action in H. destruct H as [H|[D1 H]]; [left; exact H|right]. split; [exact D1|].
  apply step_true in H. destruct H as [(tree & P & H)|(e & P & H)]; [right | left; exists e; split; [split; assumption | exact H]].
  exists tree. split; [exact P|].
  apply verdict_action in H. destruct H as [H|[D2 H]]; [left; exact H|right]. split; [exact D2|].
  apply step_true in H. destruct H as [(l & L & H)|(e & L & H)]; [right | left; exists e; auto].
  exists l. split; [exact L|].
  apply verdict_action in H. destruct H as [H|[D3 H]]; [left; exact H|right]. split; [exact D3|].
  destruct (is_success p); cbn [negb] in H; [|discriminate H]. split; [reflexivity|].
  destruct f as [g|]; [|exact Logic.I]. congruence.
Qed.

Lemma validity_back : forall file p f source, @construct Empty_set p = Ok p -> reads w file source ->
  test_validity file p f =
  verdict_of (done p stage_load_file)
    (test_step (tokenize source) (tokenize_failed colors p (str "test/" ++ file) source) (fun tokens =>
       verdict_of (done p stage_tokenize)
         (test_step (parse (lexemes source tokens)) (parse_failed colors p (str "test/" ++ file) source tokens) (fun tree =>
            verdict_of (done p stage_parse)
              (test_step (analyze run_fuel fuel tree)
                 (fun e => analysis_failed colors p (str "test/" ++ file) source (located tree e)) (fun program =>
                   verdict_of (done p stage_analyze)
                     (if negb (is_success p) then Some (Ok false)
                      else match f with None => Some (Ok true) | Some g => Some (g program) end))))))).
Proof.
  intros file p f source C R. unfold Testing.test_validity. rewrite C. unfold reads in R. rewrite R.
  rewrite C72_reads by lia. reflexivity.
Qed.

Lemma success_no_error : forall max file source,
  (forall e, tokenize_failed colors (Expect_Success max) file source e <> Ok act_SUCCESS) /\
  (forall ts e, parse_failed colors (Expect_Success max) file source ts e <> Ok act_SUCCESS) /\
  (forall e, analysis_failed colors (Expect_Success max) file source e <> Ok act_SUCCESS).
Proof.
  intros max file source. repeat split; intros; eapply failure_no_success; reflexivity.
Qed.

Lemma for_success : forall file until,
  test_for_success run_fuel fuel located colors w file until = Some (Ok true) <->
  exists source, reads w file source /\ passed run_fuel fuel until source.
Proof.
  intros file until. unfold test_for_success. split.
  - intros H. apply validity in H. destruct H as (_ & source & R & H). exists source. split; [exact R|].
    destruct (success_no_error until (str "test/" ++ file) source) as (NT & NP & NA).
    destruct H as [H|(D0 & [(e & _ & H)|(ts & T & [H|(D1 & [(e & _ & H)|(tree & P & [H|(D2 & [(e & _ & H)|(l & L & H)])])])])])];
      try (destruct (NT _ H)); try (destruct (NP _ _ H)); try (destruct (NA _ H));
      destruct until; cbn in *; try discriminate; try exact Logic.I.
    + exists ts. exact T.
    + exists tree. exists ts. split; [exact T | exact P].
    + exists l, tree. split; [exists ts; split; [exact T | exact P] | exact L].
    + exists l, tree. split; [exists ts; split; [exact T | exact P] | exact L].
  - intros (source & R & H). rewrite (validity_back file (Expect_Success until) _ source eq_refl R).
    destruct until; cbn [done verdict_of stage_leb stage_index Nat.leb passed is_success negb] in *; try reflexivity.
    + destruct H as (ts & T). unfold tokenized in T. rewrite T. reflexivity.
    + destruct H as (tree & ts & T & P). unfold tokenized in T. rewrite T. cbn [test_step]. rewrite P. reflexivity.
    + destruct H as (l & tree & (ts & T & P) & L). unfold tokenized in T. rewrite T. cbn [test_step]. rewrite P.
      cbn [test_step]. rewrite L. reflexivity.
    + destruct H as (l & tree & (ts & T & P) & L). unfold tokenized in T. rewrite T. cbn [test_step]. rewrite P.
      cbn [test_step]. rewrite L. reflexivity.
Qed.

Lemma for_introspection : forall file f,
  test_for_success_then_introspect run_fuel fuel located colors w file f = Some (Ok true) <->
  exists source l, reads w file source /\ accepted run_fuel fuel source l /\ f l = Ok true.
Proof.
  intros file f. unfold test_for_success_then_introspect. split.
  - intros H. apply validity in H. destruct H as (_ & source & R & H).
    destruct (success_no_error stage_introspect (str "test/" ++ file) source) as (NT & NP & NA).
    destruct H as [H|(D0 & [(e & _ & H)|(ts & T & [H|(D1 & [(e & _ & H)|(tree & P & [H|(D2 & [(e & _ & H)|(l & L & [H|(D3 & _ & H)])])])])])])];
      try discriminate H; try (destruct (NT _ H)); try (destruct (NP _ _ H)); try (destruct (NA _ H)).
    exists source, l. split; [exact R|]. split; [|exact H]. exists tree. split; [exists ts; auto | exact L].
  - intros (source & l & R & (tree & (ts & T & P) & L) & H). rewrite (validity_back file (Expect_Success stage_introspect) _ source eq_refl R).
    unfold tokenized in T. rewrite T. cbn [test_step done verdict_of stage_leb stage_index Nat.leb]. rewrite P.
    cbn [test_step done verdict_of stage_leb stage_index Nat.leb]. rewrite L.
    cbn [test_step done verdict_of stage_leb stage_index Nat.leb is_success negb]. rewrite H. reflexivity.
Qed.

Lemma for_tokenize_error : forall file c,
  test_for_tokenize_error run_fuel fuel located colors w file c = Some (Ok true) <->
  exists source e, reads w file source /\ tokenize_ends source e /\ te_code e = c.
Proof.
  intros file c. unfold test_for_tokenize_error. split.
  - intros H. apply validity in H. destruct H as (_ & source & R & H).
    destruct H as [H|(D0 & [(e & T & H)|(ts & T & [H|(D1 & _)])])]; try discriminate.
    exists source, e. split; [exact R|]. split; [exact T|]. unfold tokenize_failed in H.
    destruct (tokenize_code_eq_dec (te_code e) c) as [E|]; [exact E|].
    exfalso. revert H. eapply failure_no_success. reflexivity.
  - intros (source & e & R & T & E). rewrite (validity_back file (Expect_Tokenize_Error c) _ source eq_refl R). unfold tokenize_ends in T. rewrite T.
    cbn [test_step done verdict_of stage_leb stage_index Nat.leb assert_then]. apply last_action. unfold tokenize_failed.
    destruct (tokenize_code_eq_dec (te_code e) c) as [_|N0]; [reflexivity | contradiction].
Qed.

Lemma for_parse_error : forall file x,
  test_for_parse_error run_fuel fuel located colors w file x = Some (Ok true) <->
  px_line x <> Some 0%nat /\
  exists source ts e, reads w file source /\ parse_ends source ts e /\ parse_expected x ts e = true.
Proof.
  intros file x. unfold test_for_parse_error. split.
  - intros H. apply validity in H. destruct H as (C & source & R & H). split.
    { intros E. unfold construct in C. rewrite E in C. discriminate C. }
    destruct H as [H|(D0 & [(e & T & H)|(ts & T & [H|(D1 & [(e & P & H)|(tree & P & [H|(D2 & _)])])])])]; try discriminate.
    + exfalso. revert H. eapply failure_no_success. reflexivity.
    + exists source, ts, e. split; [exact R|]. split; [exact P|]. unfold parse_failed in H.
      destruct (parse_expected x ts e); [reflexivity|]. exfalso. revert H. eapply failure_no_success. reflexivity.
  - intros (L0 & source & ts & e & R & [T P] & E).
    assert (C : @construct Empty_set (Expect_Parse_Error x) = Ok (Expect_Parse_Error x)).
    { unfold construct. destruct (px_line x) as [[|n]|]; [contradiction | reflexivity | reflexivity]. }
    rewrite (validity_back _ _ _ source C R). unfold tokenized in T. rewrite T.
    cbn [test_step done verdict_of stage_leb stage_index Nat.leb assert_then]. rewrite P.
    cbn [test_step]. apply last_action. unfold parse_failed. rewrite E. reflexivity.
Qed.

Lemma for_analysis_error : forall file x,
  test_for_analysis_error run_fuel fuel located colors w file x = Some (Ok true) <->
  line_positive (ax_fail_line x) = true /\ line_positive (ax_cause_line x) = true /\
  exists source p e, reads w file source /\ analysis_ends run_fuel fuel source p e /\
    analysis_expected x (located p e) = Ok true.
Proof.
  intros file x. unfold test_for_analysis_error. split.
  - intros H. apply validity in H. destruct H as (C & source & R & H).
    unfold construct, assert_then in C.
    destruct (line_positive (ax_fail_line x)); [|discriminate C].
    destruct (line_positive (ax_cause_line x)); [|discriminate C]. split; [reflexivity|]. split; [reflexivity|].
    destruct H as [H|(D0 & [(e & T & H)|(ts & T & [H|(D1 & [(e & P & H)|(tree & P & [H|(D2 & [(e & L & H)|(l & L & [H|(D3 & _)])])])])])])];
      try discriminate.
    + exfalso. revert H. eapply failure_no_success. reflexivity.
    + exfalso. revert H. eapply failure_no_success. reflexivity.
    + exists source, tree, e. split; [exact R|]. split; [split; [exists ts; auto | exact L]|].
      unfold analysis_failed in H. destruct (analysis_expected x (located tree e)) as [[|]|[]| |]; cbn in H; try discriminate H.
      * reflexivity.
      * exfalso. revert H. eapply failure_no_success. reflexivity.
  - intros (F & K & source & p & e & R & [(ts & T & P) L] & E).
    assert (C : @construct Empty_set (Expect_Analysis_Error x) = Ok (Expect_Analysis_Error x)).
    { unfold construct, assert_then. rewrite F, K. reflexivity. }
    rewrite (validity_back _ _ _ source C R). unfold tokenized in T. rewrite T.
    cbn [test_step done verdict_of stage_leb stage_index Nat.leb assert_then]. rewrite P.
    cbn [test_step done verdict_of stage_leb stage_index Nat.leb assert_then]. rewrite L.
    cbn [test_step]. apply last_action. unfold analysis_failed. rewrite E. reflexivity.
Qed.

End Tests.

(** The expectations about codes and lines. *)
Lemma met_by_true : forall E x e, @met_by E x e = Ok true <-> has_code x e.
Proof.
  intros E x e. unfold met_by, has_code, code_of.
  destruct (ae_code e) as [c|a|a|].
  - split.
    + destruct (error_code_eq_dec (ce_code x) c) as [Eq|]; [|discriminate].
      intros H. split; [exact Eq|]. rewrite Eq in H.
      split; intros Bad; rewrite Bad in H; discriminate H.
    + intros (Eq & N1 & N2). destruct (error_code_eq_dec (ce_code x) c) as [_|Ne]; [|contradiction].
      rewrite Eq. destruct c; try reflexivity; contradiction.
  - destruct (error_code_eq_dec (ce_code x) ac_evaluation_error) as [Eq|Ne]; [rewrite Eq|].
    + destruct (ce_detail x) as [|b|b]; try (split; [discriminate | intros [_ Q]; discriminate Q]).
      destruct (eval_error_eq_dec a b) as [->|Nb]; [split; auto|].
      split; [discriminate | intros [_ Q]; injection Q as Q; symmetry in Q; contradiction].
    + split; [discriminate | intros [Q _]; contradiction].
  - destruct (error_code_eq_dec (ce_code x) ac_execution_error) as [Eq|Ne]; [rewrite Eq|].
    + destruct (ce_detail x) as [|b|b]; try (split; [discriminate | intros [_ Q]; discriminate Q]).
      destruct (exec_code_eq_dec a b) as [->|Nb]; [split; auto|].
      split; [discriminate | intros [_ Q]; injection Q as Q; symmetry in Q; contradiction].
    + split; [discriminate | intros [Q _]; contradiction].
  - split; [|intros []]. destruct (error_code_eq_dec (ce_code x) ac_execution_error) as [Eq|Ne]; [rewrite Eq|]; discriminate.
Qed.

Lemma line_expected_true : forall l pos, line_expected l pos = Ok true <-> agrees l (on_line pos).
Proof.
  intros [n|] pos; unfold agrees, on_line; cbn.
  - destruct pos as [q|].
    + split.
      * intros H m E. injection E as <-. exists q. split; [reflexivity|]. injection H as H. apply Z.eqb_eq in H. lia.
      * intros H. destruct (H n eq_refl) as (p & E & L). injection E as <-. f_equal. apply Z.eqb_eq. lia.
    + split; [discriminate|]. intros H. destruct (H n eq_refl) as (p & E & _). discriminate E.
  - split; [intros _ m E; discriminate E | reflexivity].
Qed.

Lemma analysis_expected_true : forall x e, analysis_expected x e = Ok true <->
  has_code (ax_code x) e /\ agrees (ax_fail_line x) (on_line (di_pos (ae_fail e))) /\
  agrees (ax_cause_line x) (on_line (cause_pos e)).
Proof.
  intros x e. rewrite <- (met_by_true Empty_set), <- !line_expected_true. unfold analysis_expected.
  destruct (met_by (ax_code x) e) as [[|]|[]| |]; cbn [bind negb].
  - destruct (line_expected (ax_fail_line x) _) as [[|]|[]| |]; cbn [bind negb];
      try (split; [discriminate | intros (_ & Q & _); discriminate Q]).
    unfold cause_pos. destruct (ax_cause_line x) as [n|], (ae_cause e) as [c|]; cbn; split; try tauto;
      try (intros Q; discriminate Q); intros (_ & _ & Q); exact Q || discriminate Q.
  - split; [|intros (Q & _); discriminate Q]. destruct (@error_name_read Empty_set e); discriminate.
  - split; [discriminate | intros (Q & _); discriminate Q].
  - split; [discriminate | intros (Q & _); discriminate Q].
Qed.
