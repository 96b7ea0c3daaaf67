(** What the parser's errors say about tokens (C73). *)
From Coq Require Import ZArith Ascii String List Bool Lia.
From Verif Require Import Prelude Text Tables Tokenizer Annotations Ast Parse GrammarSpec ParseFacts ParseTotal.
Import ListNotations.
Open Scope string_scope.
Open Scope list_scope.
Open Scope nat_scope.

(** An open parenthesis comes before the end [rest] of these tokens. *)
Definition after_parenthesis (ts rest : list lexeme) : Prop :=
  exists a x b, ts = a ++ (tk_left_parenthesis, x) :: b ++ rest.

(** The tokens that are written in the rules (src/bms/parsing/grammar.ebnf:8-106), with those of [function_header]
    at [function_declaration], and the semicolon that the parser wants after a constant. *)
Definition terminals (r : grammar_rule) : list token_type :=
  match r with
  | gr_const_declaration => [tk_keyword_const; tk_identifier; tk_colon; tk_semicolon]
  | gr_let_declaration => [tk_keyword_let; tk_identifier; tk_colon; tk_semicolon]
  | gr_initializer => [tk_assign]
  | gr_function_declaration =>
      [tk_keyword_function; tk_identifier; tk_left_parenthesis; tk_right_parenthesis; tk_right_arrow]
  | gr_requires_clause => [tk_keyword_requires]
  | gr_parameter => [tk_identifier; tk_colon]
  | gr_static_assertion => [tk_keyword_static_assert; tk_semicolon]
  | gr_annotation => [tk_at; tk_identifier; tk_left_parenthesis; tk_right_parenthesis]
  | gr_assignment_statement => [tk_semicolon]
  | gr_function_call_statement => [tk_semicolon]
  | gr_assignment => [tk_identifier; tk_assign]
  | gr_break_statement => [tk_keyword_break; tk_semicolon]
  | gr_continue_statement => [tk_keyword_continue; tk_semicolon]
  | gr_return_statement => [tk_keyword_return; tk_semicolon]
  | gr_if_statement => [tk_keyword_if]
  | gr_else_statement => [tk_keyword_else]
  | gr_while_statement => [tk_keyword_while]
  | gr_block_statement => [tk_left_brace; tk_right_brace]
  | gr_conversion_expression => [tk_keyword_as]
  | gr_if_expression => [tk_keyword_if; tk_keyword_else]
  | gr_function_call_expression => [tk_identifier; tk_left_parenthesis; tk_right_parenthesis]
  | gr_parenthesized_expression => [tk_left_parenthesis; tk_right_parenthesis]
  | _ => []
  end.

(** What may be expected in a rule. *)
Definition known (r : grammar_rule) (l : list token_type) : Prop :=
  match r with
  | gr_type => l = [tk_keyword_void; tk_keyword_bool; tk_keyword_int; tk_keyword_uint]
  | gr_statement => l = expected_statements \/ l = [tk_keyword_let; tk_keyword_const; tk_keyword_if; tk_keyword_while; tk_identifier]
  | gr_program_declaration =>
      l = [tk_keyword_const; tk_keyword_function; tk_keyword_static_assert; tk_at] \/ l = [tk_keyword_const; tk_keyword_function]
  | gr_primary_expression => l = expected_primaries
  | gr_comparison_expression => l = expected_comparisons
  | gr_annotation_argument => l = [tk_assign] \/ l = expected_values \/ l = tk_identifier :: expected_values
  | _ => exists k, l = [k] /\ In k (terminals r)
  end.

(** An error makes sense: something is expected, and that is not what was found; but a primary expression in
    parentheses may contradict itself. *)
Definition sensible (ts : list lexeme) (e : parse_error) : Prop :=
  pe_expected e <> [] /\ known (pe_rule e) (pe_expected e) /\ (exists before, ts = before ++ pe_rest e) /\
  forall k x rest, pe_rest e = (k, x) :: rest -> In k (pe_expected e) ->
    pe_rule e = gr_primary_expression /\ after_parenthesis ts (pe_rest e).

Definition answers {A} (ts : list lexeme) (r : result A) : Prop :=
  match r with
  | Some (Ok (_, rest)) => exists p, ts = p ++ rest
  | Some (Err e) => sensible ts e
  | _ => True
  end.

Lemma sensible_app : forall p ts e, sensible ts e -> sensible (p ++ ts) e.
Proof.
  intros p ts e (N & W & (b & B) & S). split; [exact N|]. split; [exact W|]. split; [exists (p ++ b); rewrite B, app_assoc; reflexivity|].
  intros k x rest R I. destruct (S k x rest R I) as (P & a & y & c & Q). split; [exact P|].
  exists (p ++ a), y, c. rewrite Q, <- app_assoc. reflexivity.
Qed.

Lemma answers_app : forall A p ts (r : result A), answers ts r -> answers (p ++ ts) r.
Proof.
  intros A p ts [[[a rest]|e| |]|] H; cbn in *; auto.
  - destruct H as (q & ->). exists (p ++ q). apply app_assoc.
  - apply sensible_app. exact H.
Qed.

Lemma answers_bind : forall A B ts (m : result A) (k : A * list lexeme -> result B),
  answers ts m -> (forall a rest, answers rest (k (a, rest))) -> answers ts (bind_result m k).
Proof.
  intros A B ts [[[a rest]|e| |]|] k M K; cbn in *; auto. destruct M as (p & ->). apply answers_app, K.
Qed.

Lemma answers_matched : forall A (a : A) ts, answers ts (matched a ts).
Proof. intros A a ts. exists []. reflexivity. Qed.

Lemma skips : forall ts, exists p, ts = p ++ skip_comments ts.
Proof. intros ts. destruct (skip_ends ts) as (p & E & _). exists p. exact E. Qed.

(** A failure where none of the expected tokens is next. *)
Lemma answers_fail : forall A r ts, snd r <> [] -> known (fst r) (snd r) ->
  (forall k x rest, skip_comments ts = (k, x) :: rest -> ~ In k (snd r)) -> answers ts (@fail A r ts).
Proof.
  intros A r ts N W F. cbn. split; [exact N|]. split; [exact W|]. split; [apply skips|]. cbn [pe_rest pe_expected]. intros k x rest E I.
  destruct (F k x rest E I).
Qed.

Lemma answers_demand : forall p r ts, snd r <> [] -> known (fst r) (snd r) ->
  (forall k x rest, skip_comments ts = (k, x) :: rest -> In k (snd r) -> p k = true) -> answers ts (demand p r ts).
Proof.
  intros p r ts N W F. unfold demand, expect. destruct (skip_comments ts) as [|[k x] rest] eqn:E.
  - apply answers_fail; [exact N|exact W|]. rewrite E. discriminate.
  - cbn [fst]. destruct (p k) eqn:P.
    + destruct (skips ts) as (q & Q). rewrite E in Q. exists (q ++ [(k, x)]). rewrite Q, <- app_assoc. reflexivity.
    + apply answers_fail; [exact N|exact W|]. rewrite E. intros k' x' rest' H I. injection H as <- <- <-.
      rewrite (F k x rest eq_refl I) in P. discriminate P.
Qed.

(** Rules that do not expect one token at a time. *)
Definition many (r : grammar_rule) : bool :=
  match r with
  | gr_type | gr_statement | gr_program_declaration | gr_primary_expression | gr_comparison_expression
  | gr_annotation_argument => true
  | _ => false
  end.

Lemma answers_assign : forall ts, answers ts (demand (is tk_assign) (alone gr_annotation_argument tk_assign) ts).
Proof.
  intros ts. apply answers_demand; [discriminate|cbn; tauto|]. intros k x rest _ [<-|[]]. reflexivity.
Qed.

Lemma answers_alone : forall k r ts, negb (many r) && existsb (token_type_eqb k) (terminals r) = true -> answers ts (demand (is k) (alone r k) ts).
Proof.
  intros k r ts M. apply andb_true_iff in M as (M & T). apply existsb_exists in T as (k' & T & Ek).
  assert (k' = k) by (symmetry; apply is_iff; destruct k, k'; try discriminate Ek; reflexivity). subst k'. clear Ek.
  apply answers_demand; [discriminate|destruct r; try discriminate M; exists k; (split; [reflexivity|exact T])|]. intros k' x rest _ [<-|[]]. apply is_iff. reflexivity.
Qed.

Lemma answers_expect : forall A p ts t rest (r : result A), expect p ts = Some (t, rest) -> answers rest r -> answers ts r.
Proof.
  intros A p ts t rest r E H. destruct (expect_ends _ _ _ _ E) as (q & -> & _). apply answers_app, H.
Qed.

(** Going through a rule. *)
Ltac ask :=
  repeat first
    [ apply answers_matched
    | apply answers_alone; reflexivity
    | apply answers_assign
    | assumption
    | exact Logic.I
    | match goal with
      | H : forall ts, answers ts _ |- _ => apply H
      | H : forall a ts, answers ts _ |- _ => apply H
      | |- answers _ (bind_result _ _) => apply answers_bind; [|intros ? ?; cbv beta iota]
      | |- answers _ (match expect ?p ?ts with _ => _ end) =>
          let E := fresh "E" in destruct (expect p ts) as [[? ?]|] eqn:E; [eapply answers_expect; [exact E|]|]
      | |- answers _ (if ?b then _ else _) => destruct b
      end ].

Lemma argument_answers : forall ts, answers ts (match_annotation_argument ts).
Proof.
  intros ts. unfold match_annotation_argument.
  destruct (expect (is tk_identifier) ts) as [[k ts1]|] eqn:E.
  - eapply answers_expect; [exact E|]. cbn [bind_result]. change (answers ts1 (bind_result (bind_result (demand (is tk_assign) (alone gr_annotation_argument tk_assign) ts1) (fun '(_, ts2) => matched (snd k) ts2)) (fun '(key, ts3) => bind_result (demand tk_is_literal (gr_annotation_argument, expected_values) ts3) (fun '(value, ts4) => if is tk_string_literal (fst value) then if 2 <=? length (snd value) then matched (AA key (firstn (length (snd value) - 2) (skipn 1 (snd value))) (fst value)) ts4 else Some Abort else matched (AA key (snd value) (fst value)) ts4)))).
    ask. apply answers_demand; [discriminate|cbn; tauto|]. intros k' x rest' _ I. repeat (destruct I as [<-|I]; [reflexivity|]). destruct I.
  - cbn [bind_result matched]. ask.
    apply answers_demand; [discriminate|cbn; tauto|]. intros k' x rest' S I. cbn [snd In] in I. destruct I as [<-|I].
    + unfold expect in E. rewrite S in E. discriminate E.
    + repeat (destruct I as [<-|I]; [reflexivity|]). destruct I.
Qed.

Lemma arguments_answer : forall fuel ts, answers ts (annotation_arguments fuel ts).
Proof. induction fuel as [|fuel IH]; intros ts; [exact Logic.I|]. cbn [annotation_arguments]. ask. apply argument_answers. Qed.

Lemma argument_list_answers : forall ts, answers ts (annotation_argument_list ts).
Proof. intros ts. unfold annotation_argument_list. ask. apply arguments_answer. Qed.

Lemma annotation_answers : forall ts, answers ts (match_annotation ts).
Proof.
  intros ts. unfold match_annotation. ask.
  match goal with |- answers ?r (match annotation_argument_list ?r with _ => _ end) =>
    pose proof (argument_list_answers r) as H; destruct (annotation_argument_list r) as [[[? ?]|e| |]|] end; try exact Logic.I.
  cbn in *. exact H.
Qed.

Lemma annotations_answer : forall fuel ts, answers ts (annotation_sequence fuel ts).
Proof. induction fuel as [|fuel IH]; intros ts; [exact Logic.I|]. cbn [annotation_sequence]. ask. apply annotation_answers. Qed.

Lemma optional_annotations_answer : forall ts, answers ts (optional_annotations ts).
Proof. intros ts. unfold optional_annotations. ask. apply annotations_answer. Qed.

Section Expressions.
Variable expr : list lexeme -> result pexpr.
Hypothesis expr_answers : forall ts, answers ts (expr ts).
Variable fuel : nat.

Lemma parenthesized_answers : forall ts, answers ts (match_parenthesized expr ts).
Proof. intros ts. unfold match_parenthesized. ask. Qed.

Lemma not_next : forall k ts x rest, expect (is k) ts = None -> skip_comments ts = (k, x) :: rest -> False.
Proof.
  intros k ts x rest E S. unfold expect in E. rewrite S in E. cbn [fst] in E. unfold is in E.
  destruct k; discriminate E.
Qed.

Lemma type_answers : forall ts, answers ts (match_type expr ts).
Proof.
  intros ts. unfold match_type. ask; [apply parenthesized_answers|].
  apply answers_fail; [discriminate|cbn; tauto|]. intros k x rest S I. cbn [snd In] in I.
  repeat (destruct I as [<-|I]; [eapply not_next; [|eassumption]; eassumption|]). exact I.
Qed.

Lemma primary_answers : forall ts, answers ts (match_primary expr ts).
Proof.
  intros ts. unfold match_primary. ask. rename E into L. rename E0 into D.
  destruct (skip_comments ts) as [|[k x] rest] eqn:S.
  { unfold match_parenthesized, demand, fail, expect. rewrite S. cbn. split; [discriminate|]. split; [reflexivity|].
    split; [exists ts; symmetry; apply app_nil_r|]. discriminate. }
  destruct (is tk_left_parenthesis k) eqn:P.
  - apply is_iff in P. subst k.
    assert (Q : match_parenthesized expr ts = bind_result (expr rest) (fun '(e, ts2) =>
      bind_result (demand (is tk_right_parenthesis) (alone gr_parenthesized_expression tk_right_parenthesis) ts2)
        (fun '(_, ts3) => matched e ts3))).
    { unfold match_parenthesized at 1. unfold demand at 1, expect at 1. rewrite S. reflexivity. }
    rewrite Q. clear Q.
    assert (G : answers rest (bind_result (expr rest) (fun '(e, ts2) =>
      bind_result (demand (is tk_right_parenthesis) (alone gr_parenthesized_expression tk_right_parenthesis) ts2)
        (fun '(_, ts3) => matched e ts3)))) by ask.
    destruct (skips ts) as (q & R). rewrite S in R.
    destruct (bind_result (expr rest) _) as [[[e r]|e| |]|]; try exact Logic.I; cbn in G |- *.
    + destruct G as (p & ->). exists (q ++ (tk_left_parenthesis, x) :: p). rewrite R, <- app_assoc. reflexivity.
    + destruct G as (_ & _ & (b & B) & _). split; [discriminate|]. split; [reflexivity|]. split.
      * exists (q ++ (tk_left_parenthesis, x) :: b). cbn [pe_rest]. rewrite R, <- app_assoc, B at 1. reflexivity.
      * intros k y r _ _. split; [reflexivity|]. cbn [pe_rest]. exists q, x, b. rewrite <- B. exact R.
  - assert (Q : match_parenthesized expr ts = fail (alone gr_parenthesized_expression tk_left_parenthesis) ts).
    { unfold match_parenthesized, demand, expect. rewrite S. cbn [fst]. rewrite P. reflexivity. }
    rewrite Q. cbn. split; [discriminate|]. split; [reflexivity|]. split; [apply skips|]. cbn [pe_rest pe_expected pe_rule].
    intros k' y r H I. rewrite S in H. injection H as <- <- <-. exfalso.
    unfold expect in L, D. rewrite S in L, D. cbn [fst] in L, D.
    cbn [In expected_primaries] in I. repeat (destruct I as [<-|I]; [discriminate|]). exact I.
Qed.

Lemma call_arguments_answer : forall g b ts, answers ts (call_arguments expr g b ts).
Proof.
  induction g as [|g IH]; intros b ts; [exact Logic.I|]. cbn [call_arguments]. destruct b.
  - ask.
  - ask.
Qed.

Lemma call_answers : forall ts, answers ts (match_call expr fuel ts).
Proof. intros ts. unfold match_call. ask; [apply call_arguments_answer|apply optional_annotations_answer]. Qed.

Lemma postfix_answers : forall ts, answers ts (match_postfix expr fuel ts).
Proof. intros ts. unfold match_postfix. ask; [apply call_answers|apply primary_answers]. Qed.

Lemma prefix_answers : forall ts, answers ts (match_prefix expr fuel ts).
Proof. intros ts. unfold match_prefix. ask; apply postfix_answers. Qed.

Lemma arithmetic_answers : forall ts, answers ts (match_arithmetic expr fuel ts).
Proof. intros ts. unfold match_arithmetic. ask; apply prefix_answers. Qed.

Lemma binary_answers : forall ts, answers ts (match_binary expr fuel ts).
Proof.
  intros ts. unfold match_binary, match_comparison. ask; try apply arithmetic_answers; try apply prefix_answers.
  apply answers_demand; [discriminate|cbn; tauto|]. intros k x rest' _ I. cbn [snd In expected_comparisons] in I.
  repeat (destruct I as [<-|I]; [reflexivity|]). destruct I.
Qed.

Lemma if_answers : forall g ts, answers ts (match_if expr fuel g ts).
Proof. induction g as [|g IH]; intros ts; [exact Logic.I|]. cbn [match_if]. ask; apply binary_answers. Qed.

Lemma conversion_answers : forall ts, answers ts (match_conversion expr fuel ts).
Proof. intros ts. unfold match_conversion. ask; [apply prefix_answers|apply type_answers]. Qed.
End Expressions.

Lemma expression_answers : forall fuel ts, answers ts (expression fuel ts).
Proof.
  induction fuel as [|fuel IH]; intros ts; [exact Logic.I|]. cbn [expression].
  destruct (is_conversion (expression fuel) fuel ts) as [[b|e| |]|] eqn:C; try exact Logic.I.
  - cbn [bind_result]. destruct b; [apply conversion_answers|apply if_answers]; exact IH.
  - unfold is_conversion in C. destruct (match_prefix _ _ ts) as [[[? ?]|?| |]|]; discriminate C.
Qed.

Lemma match_expression_answers : forall ts, answers ts (match_expression ts).
Proof. intros ts. apply expression_answers. Qed.

Lemma match_type_answers : forall ts, answers ts (match_type match_expression ts).
Proof. apply type_answers, match_expression_answers. Qed.

Lemma optional_type_answers : forall ts, answers ts (optional_type ts).
Proof. intros ts. unfold optional_type. ask. apply match_type_answers. Qed.

Lemma initializer_answers : forall ts, answers ts (match_initializer ts).
Proof. intros ts. unfold match_initializer. ask. apply match_expression_answers. Qed.

Lemma let_answers : forall an ts, answers ts (match_let an ts).
Proof. intros an ts. unfold match_let. ask; [apply optional_type_answers|apply initializer_answers]. Qed.

Lemma const_answers : forall an ts, answers ts (match_const an ts).
Proof. intros an ts. unfold match_const. ask; [apply optional_type_answers|apply initializer_answers]. Qed.

Lemma static_assertion_answers : forall ts, answers ts (match_static_assertion ts).
Proof. intros ts. unfold match_static_assertion. ask. apply parenthesized_answers, match_expression_answers. Qed.

Lemma assignment_answers : forall an ts, answers ts (match_assignment_statement an ts).
Proof. intros an ts. unfold match_assignment_statement, match_assignment. ask. apply match_expression_answers. Qed.

Lemma call_statement_answers : forall ts, answers ts (match_function_call_statement ts).
Proof.
  intros ts. unfold match_function_call_statement. ask; [apply call_answers, match_expression_answers|].
  match goal with |- answers _ (bind_result (Some (mark_statement ?c)) _) => destruct c; cbn; try exact Logic.I end.
  exists []. reflexivity.
Qed.

Lemma return_answers : forall ts, answers ts (match_return ts).
Proof. intros ts. unfold match_return. ask. apply match_expression_answers. Qed.

(** A failure because of the next token. *)
Ltac next_fails S :=
  apply answers_fail; [discriminate|cbn; tauto|]; rewrite S; intros ? ? ? H I; try discriminate H; injection H as <- <- <-;
  cbn in I; intuition discriminate.

Section Statements.
Variable stmt : list lexeme -> result pstmt.
Hypothesis stmt_answers : forall ts, answers ts (stmt ts).

Lemma block_statements_answer : forall fuel ts, answers ts (block_statements stmt fuel ts).
Proof. induction fuel as [|fuel IH]; intros ts; [exact Logic.I|]. cbn [block_statements]. ask. Qed.

Lemma block_answers : forall fuel ts, answers ts (match_block stmt fuel ts).
Proof. intros fuel ts. unfold match_block. ask. apply block_statements_answer. Qed.

Lemma if_statement_answers : forall fuel an ts, answers ts (match_if_statement stmt fuel an ts).
Proof.
  induction fuel as [|fuel IH]; intros an ts; [exact Logic.I|]. cbn [match_if_statement].
  ask; try apply match_expression_answers; try apply block_answers.
Qed.

Lemma while_answers : forall fuel an ts, answers ts (match_while stmt fuel an ts).
Proof. intros fuel an ts. unfold match_while. ask; [apply match_expression_answers|apply block_answers]. Qed.

Lemma annotated_statement_answers : forall fuel an ts, answers ts (match_annotated_statement stmt fuel an ts).
Proof.
  intros fuel an ts. unfold match_annotated_statement.
  destruct (skip_comments ts) as [|[k x] r] eqn:S; [next_fails S|].
  destruct k; try next_fails S; auto using const_answers, let_answers, if_statement_answers, while_answers, assignment_answers.
Qed.

Lemma statement_step_answers : forall fuel ts, answers ts (statement_step stmt fuel ts).
Proof.
  intros fuel ts. unfold statement_step.
  destruct (skip_comments ts) as [|[k x] r] eqn:S; [next_fails S|].
  destruct k; try next_fails S; auto using const_answers, let_answers, if_statement_answers, while_answers,
    static_assertion_answers, return_answers.
  - unfold match_assignment_or_call, peek at 1, expect. rewrite S. cbn [fst is token_type_eqb].
    destruct (peek_second _ ts); [apply assignment_answers|apply call_statement_answers].
  - ask. apply block_answers.
  - ask; [apply annotations_answer|apply annotated_statement_answers].
  - unfold match_break. ask.
  - unfold match_continue. ask.
Qed.
End Statements.

Lemma match_statement_answers : forall ts, answers ts (match_statement ts).
Proof.
  intros ts. unfold match_statement. generalize (S (length ts)). intros fuel. revert ts.
  induction fuel as [|fuel IH]; intros ts; [exact Logic.I|]. apply statement_step_answers, IH.
Qed.

Lemma parameters_answer : forall fuel ts, answers ts (parameter_sequence fuel ts).
Proof.
  induction fuel as [|fuel IH]; intros ts; [exact Logic.I|]. cbn [parameter_sequence]. unfold match_parameter. ask.
  apply match_type_answers.
Qed.

Lemma function_answers : forall an ts, answers ts (match_function an ts).
Proof.
  intros an ts. unfold match_function, optional_requires.
  ask; try apply parameters_answer; try apply match_type_answers; try apply match_expression_answers.
  apply block_answers, match_statement_answers.
Qed.

Lemma const_declaration_answers : forall an ts, answers ts (const_declaration an ts).
Proof. intros an ts. unfold const_declaration. ask. apply const_answers. Qed.

Lemma function_declaration_answers : forall an ts, answers ts (function_declaration an ts).
Proof. intros an ts. unfold function_declaration. ask. apply function_answers. Qed.

Lemma declaration_answers : forall ts, answers ts (match_program_declaration ts).
Proof.
  intros ts. unfold match_program_declaration.
  destruct (skip_comments ts) as [|[k x] r] eqn:S; [next_fails S|].
  destruct k; try next_fails S; auto using const_declaration_answers, function_declaration_answers.
  - apply answers_bind; [apply annotations_answer|]. intros an ts1. cbv beta iota.
    destruct (peek (is tk_keyword_const) ts1) eqn:P1; [apply const_declaration_answers|].
    destruct (peek (is tk_keyword_function) ts1) eqn:P2; [apply function_declaration_answers|].
    apply answers_fail; [discriminate|cbn; tauto|]. intros k y rest S' I. unfold peek, expect in P1, P2. rewrite S' in P1, P2.
    cbn [snd In] in I. destruct I as [<-|[<-|[]]]; discriminate.
  - ask. apply static_assertion_answers.
Qed.

Lemma program_answers : forall fuel ts, answers ts (program_declarations fuel ts).
Proof.
  induction fuel as [|fuel IH]; intros ts; [exact Logic.I|]. cbn [program_declarations].
  apply answers_bind; [apply declaration_answers|]. intros d ts1. cbv beta iota.
  destruct (skip_comments ts1) as [|t r]; [apply answers_matched|]. ask.
Qed.

Lemma parse_sensible : forall ts e, parse ts = Some (Err e) -> sensible ts e.
Proof.
  intros ts e H. unfold parse in H. pose proof (program_answers (S (length ts)) ts) as P.
  destruct (program_declarations (S (length ts)) ts) as [[[p r]|e'| |]|]; try discriminate H. injection H as <-. exact P.
Qed.
