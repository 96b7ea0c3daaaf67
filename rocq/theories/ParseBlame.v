(** The rule that an error names has been entered: the token with which it starts was read before (C73). *)
From Coq Require Import ZArith Ascii String List Bool Lia.
From Verif Require Import Prelude Text Tables Tokenizer Annotations Ast Parse GrammarSpec ParseFacts ParseTotal ParseExpected.
Import ListNotations.
Open Scope string_scope.
Open Scope list_scope.
Open Scope nat_scope.

(** The tokens that mark the rules (src/bms/parsing/grammar.ebnf:8-106): before the parser wants another token of such a rule, it
    has read this one. *)
Definition opener (r : grammar_rule) : option token_type :=
  match r with
  | gr_const_declaration => Some tk_keyword_const
  | gr_let_declaration => Some tk_keyword_let
  | gr_initializer => Some tk_assign
  | gr_function_declaration => Some tk_keyword_function
  | gr_requires_clause => Some tk_keyword_requires
  | gr_parameter => Some tk_identifier
  | gr_static_assertion => Some tk_keyword_static_assert
  | gr_annotation => Some tk_at
  | gr_assignment_statement => Some tk_assign
  | gr_function_call_statement => Some tk_left_parenthesis
  | gr_assignment => Some tk_identifier
  | gr_break_statement => Some tk_keyword_break
  | gr_continue_statement => Some tk_keyword_continue
  | gr_return_statement => Some tk_keyword_return
  | gr_if_statement => Some tk_keyword_if
  | gr_else_statement => Some tk_keyword_else
  | gr_while_statement => Some tk_keyword_while
  | gr_block_statement => Some tk_left_brace
  | gr_if_expression => Some tk_keyword_if
  | gr_function_call_expression => Some tk_identifier
  | gr_parenthesized_expression => Some tk_left_parenthesis
  | _ => None
  end.

(** [done] has been read, and [ts] is left. *)
Definition blamed (done ts : list lexeme) (e : parse_error) : Prop :=
  forall k, opener (pe_rule e) = Some k -> pe_expected e = [k] \/
    exists p, ts = p ++ pe_rest e /\ In k (map fst (done ++ p)).
Definition blames {A} (done ts : list lexeme) (r : result A) : Prop :=
  match r with
  | Some (Ok (_, rest)) => exists p, ts = p ++ rest
  | Some (Err e) => blamed done ts e
  | _ => True
  end.

Lemma blames_app : forall A done p ts (r : result A), blames (done ++ p) ts r -> blames done (p ++ ts) r.
Proof.
  intros A done p ts [[[a rest]|e| |]|] H; cbn in *; auto.
  - destruct H as (q & ->). exists (p ++ q). apply app_assoc.
  - intros k O. destruct (H k O) as [E|(q & -> & I)]; [left; exact E|right].
    exists (p ++ q). rewrite <- !app_assoc in *. auto.
Qed.

Definition read (k : token_type) (done : list lexeme) : Prop := In k (map fst done).
Lemma read_app : forall k done p, read k done -> read k (done ++ p).
Proof. intros k done p H. unfold read. rewrite map_app. apply in_or_app. left. exact H. Qed.

Lemma blames_bind : forall A B done ts (m : result A) (k : A * list lexeme -> result B),
  blames done ts m -> (forall p a rest, m = Some (Ok (a, rest)) -> ts = p ++ rest -> blames (done ++ p) rest (k (a, rest))) ->
  blames done ts (bind_result m k).
Proof.
  intros A B done ts [[[a rest]|e| |]|] k M K; cbn in *; auto. destruct M as (p & ->). apply blames_app, K; reflexivity.
Qed.

Lemma blames_matched : forall A (a : A) done ts, blames done ts (matched a ts).
Proof. intros A a done ts. exists []. reflexivity. Qed.

Lemma blames_fail : forall A r done ts,
  (forall k, opener (fst r) = Some k -> snd r = [k] \/ read k done) -> blames done ts (@fail A r ts).
Proof.
  intros A r done ts F k O. destruct (F k O) as [E|R]; [left; exact E|right].
  destruct (skips ts) as (p & E). exists p. split; [exact E|]. apply (read_app k done p R).
Qed.

Lemma blames_demand : forall p r done ts,
  (forall k, opener (fst r) = Some k -> snd r = [k] \/ read k done) -> blames done ts (demand p r ts).
Proof.
  intros p r done ts F. unfold demand. destruct (expect p ts) as [[t rest]|] eqn:E.
  - destruct (expect_ends _ _ _ _ E) as (q & -> & _). exists q. reflexivity.
  - apply blames_fail. exact F.
Qed.

(** After a token has been read. *)
Lemma expected_read : forall p ts t rest q, expect p ts = Some (t, rest) -> ts = q ++ rest -> p (fst t) = true /\ In t q.
Proof.
  intros p ts t rest q E Q. unfold expect in E. destruct (skip_comments ts) as [|[k x] r] eqn:S; [discriminate E|].
  destruct (p (fst (k, x))) eqn:P; [|discriminate E]. injection E as <- <-. split; [exact P|].
  destruct (skips ts) as (b & B). rewrite S, Q in B.
  change (q ++ r = b ++ [(k, x)] ++ r) in B. rewrite app_assoc in B.
  apply app_inv_tail in B. subst q. apply in_or_app. right. left. reflexivity.
Qed.

Lemma blames_bind_demand : forall B k r done ts (f : lexeme * list lexeme -> result B),
  blames done ts (demand (is k) r ts) ->
  (forall done' a rest, (forall k', read k' done -> read k' done') -> read k done' -> blames done' rest (f (a, rest))) ->
  blames done ts (bind_result (demand (is k) r ts) f).
Proof.
  intros B k r done ts f M K. apply blames_bind; [exact M|]. intros p a rest E Q. apply K.
  - intros k' R. apply read_app. exact R.
  - unfold demand in E. destruct (expect (is k) ts) as [[t r']|] eqn:X; [|discriminate E]. injection E as <- <-.
    destruct (expected_read _ _ _ _ _ X Q) as (P & I). apply is_iff in P. unfold read. rewrite map_app. apply in_or_app. right.
    rewrite <- P. apply in_map. exact I.
Qed.

Lemma blames_expect : forall A k done ts t rest (r : result A), expect (is k) ts = Some (t, rest) ->
  (forall done', (forall k', read k' done -> read k' done') -> read k done' -> blames done' rest r) -> blames done ts r.
Proof.
  intros A k done ts t rest r E H. destruct (expect_ends _ _ _ _ E) as (q & Q & _).
  destruct (expected_read _ _ _ _ _ E Q) as (P & I). apply is_iff in P. rewrite Q. apply blames_app, H.
  - intros k' R. apply read_app. exact R.
  - unfold read. rewrite map_app. apply in_or_app. right. rewrite <- P. apply in_map. exact I.
Qed.

Lemma blames_expect_any : forall A p done ts t rest (r : result A), expect p ts = Some (t, rest) ->
  (forall done', (forall k', read k' done -> read k' done') -> blames done' rest r) -> blames done ts r.
Proof.
  intros A p done ts t rest r E H. destruct (expect_ends _ _ _ _ E) as (q & -> & _). apply blames_app, H.
  intros k' R. apply read_app. exact R.
Qed.

Lemma blames_step : forall A B done ts (m : result A) (k : A * list lexeme -> result B),
  blames done ts m -> (forall done' a rest, (forall k', read k' done -> read k' done') -> blames done' rest (k (a, rest))) ->
  blames done ts (bind_result m k).
Proof.
  intros A B done ts m k M K. apply blames_bind; [exact M|]. intros p a rest _ _. apply K. intros k' R. apply read_app. exact R.
Qed.

(** Going through a rule. *)
Ltac known_read := solve [ eauto 20 ].
Ltac settle := let k := fresh "k" in let O := fresh "O" in
  intros k O; cbn in O; try discriminate O; injection O as <-; first [left; reflexivity | right; known_read].
Ltac blame :=
  repeat first
    [ apply blames_matched
    | apply blames_demand; settle
    | apply blames_fail; settle
    | assumption
    | exact Logic.I
    | match goal with
      | H : forall done ts, blames done ts _ |- _ => apply H
      | H : forall a done ts, blames done ts _ |- _ => apply H
      | |- blames _ _ (bind_result (demand (is _) _ _) _) => apply blames_bind_demand; [|intros ? ? ? ? ?; cbv beta iota]
      | |- blames _ _ (bind_result _ _) => apply blames_step; [|intros ? ? ? ?; cbv beta iota]
      | |- blames _ _ (match expect (is ?p) ?ts with _ => _ end) =>
          let E := fresh "E" in destruct (expect (is p) ts) as [[? ?]|] eqn:E; [eapply blames_expect; [exact E|intros ? ? ?]|]
      | |- blames _ _ (match expect ?p ?ts with _ => _ end) =>
          let E := fresh "E" in destruct (expect p ts) as [[? ?]|] eqn:E; [eapply blames_expect_any; [exact E|intros ? ?]|]
      | |- blames _ _ (if ?b then _ else _) => destruct b
      end ].

Lemma argument_blames : forall done ts, blames done ts (match_annotation_argument ts).
Proof. intros done ts. unfold match_annotation_argument. blame. Qed.

Lemma arguments_blame : forall fuel done ts, blames done ts (annotation_arguments fuel ts).
Proof. induction fuel as [|fuel IH]; intros done ts; [exact Logic.I|]. cbn [annotation_arguments]. blame. apply argument_blames. Qed.

Lemma argument_list_blames : forall done ts, read tk_at done -> blames done ts (annotation_argument_list ts).
Proof. intros done ts R. unfold annotation_argument_list. blame. apply arguments_blame. Qed.

Lemma annotation_blames : forall done ts, blames done ts (match_annotation ts).
Proof.
  intros done ts. unfold match_annotation. blame.
  match goal with |- blames ?d ?r (match annotation_argument_list ?r with _ => _ end) =>
    assert (H9 : blames d r (annotation_argument_list r)) by (apply argument_list_blames; known_read);
    destruct (annotation_argument_list r) as [[[? ?]|e| |]|] end; try exact Logic.I.
  cbn in *. exact H9.
Qed.

Lemma annotations_blame : forall fuel done ts, blames done ts (annotation_sequence fuel ts).
Proof. induction fuel as [|fuel IH]; intros done ts; [exact Logic.I|]. cbn [annotation_sequence]. blame. apply annotation_blames. Qed.

Lemma optional_annotations_blame : forall done ts, blames done ts (optional_annotations ts).
Proof. intros done ts. unfold optional_annotations. blame. apply annotations_blame. Qed.

Section Expressions.
Variable expr : list lexeme -> result pexpr.
Hypothesis expr_blames : forall done ts, blames done ts (expr ts).
Variable fuel : nat.

Lemma parenthesized_blames : forall done ts, blames done ts (match_parenthesized expr ts).
Proof. intros done ts. unfold match_parenthesized. blame. Qed.

Lemma type_blames : forall done ts, blames done ts (match_type expr ts).
Proof. intros done ts. unfold match_type. blame. apply parenthesized_blames. Qed.

Lemma primary_blames : forall done ts, blames done ts (match_primary expr ts).
Proof.
  intros done ts. unfold match_primary. blame.
  pose proof (parenthesized_blames done ts) as H. destruct (match_parenthesized expr ts) as [[[? ?]|e| |]|]; try exact Logic.I.
  - exact H.
  - cbn. intros k O. discriminate O.
Qed.

Lemma call_arguments_blame : forall g b done ts, read tk_identifier done -> blames done ts (call_arguments expr g b ts).
Proof. induction g as [|g IH]; intros b done ts R; [exact Logic.I|]. cbn [call_arguments]. destruct b; blame; apply IH; known_read. Qed.

Lemma call_blames : forall done ts, blames done ts (match_call expr fuel ts).
Proof.
  intros done ts. unfold match_call. blame; [apply call_arguments_blame; known_read|apply optional_annotations_blame].
Qed.

Lemma postfix_blames : forall done ts, blames done ts (match_postfix expr fuel ts).
Proof. intros done ts. unfold match_postfix. blame; [apply call_blames|apply primary_blames]. Qed.

Lemma prefix_blames : forall done ts, blames done ts (match_prefix expr fuel ts).
Proof. intros done ts. unfold match_prefix. blame; apply postfix_blames. Qed.

Lemma arithmetic_blames : forall done ts, blames done ts (match_arithmetic expr fuel ts).
Proof. intros done ts. unfold match_arithmetic. blame; apply prefix_blames. Qed.

Lemma binary_blames : forall done ts, blames done ts (match_binary expr fuel ts).
Proof. intros done ts. unfold match_binary, match_comparison. blame; try apply arithmetic_blames; try apply prefix_blames. Qed.

Lemma if_blames : forall g done ts, blames done ts (match_if expr fuel g ts).
Proof. induction g as [|g IH]; intros done ts; [exact Logic.I|]. cbn [match_if]. blame; apply binary_blames. Qed.

Lemma conversion_blames : forall done ts, blames done ts (match_conversion expr fuel ts).
Proof. intros done ts. unfold match_conversion. blame; [apply prefix_blames|apply type_blames]. Qed.
End Expressions.

Lemma expression_blames : forall fuel done ts, blames done ts (expression fuel ts).
Proof.
  induction fuel as [|fuel IH]; intros done ts; [exact Logic.I|]. cbn [expression].
  destruct (is_conversion (expression fuel) fuel ts) as [[b|e| |]|] eqn:C; try exact Logic.I.
  - cbn [bind_result]. destruct b; [apply conversion_blames|apply if_blames]; exact IH.
  - unfold is_conversion in C. destruct (match_prefix _ _ ts) as [[[? ?]|?| |]|]; discriminate C.
Qed.

Lemma match_expression_blames : forall done ts, blames done ts (match_expression ts).
Proof. intros done ts. apply expression_blames. Qed.

Lemma match_type_blames : forall done ts, blames done ts (match_type match_expression ts).
Proof. apply type_blames, match_expression_blames. Qed.

Lemma optional_type_blames : forall done ts, blames done ts (optional_type ts).
Proof. intros done ts. unfold optional_type. blame. apply match_type_blames. Qed.

Lemma initializer_blames : forall done ts, blames done ts (match_initializer ts).
Proof. intros done ts. unfold match_initializer. blame. apply match_expression_blames. Qed.

Lemma let_blames : forall an done ts, blames done ts (match_let an ts).
Proof. intros an done ts. unfold match_let. blame; [apply optional_type_blames|apply initializer_blames]. Qed.

Lemma const_blames : forall an done ts, blames done ts (match_const an ts).
Proof. intros an done ts. unfold match_const. blame; [apply optional_type_blames|apply initializer_blames]. Qed.

Lemma static_assertion_blames : forall done ts, blames done ts (match_static_assertion ts).
Proof. intros done ts. unfold match_static_assertion. blame. apply parenthesized_blames, match_expression_blames. Qed.

Lemma blames_assoc : forall A B C done ts (m : result A) (f : A * list lexeme -> result B) (g : B * list lexeme -> result C),
  blames done ts (bind_result m (fun x => bind_result (f x) g)) -> blames done ts (bind_result (bind_result m f) g).
Proof. intros A B C done ts [[[a rest]|e| |]|] f g H; exact H. Qed.

Lemma assignment_blames : forall an done ts, blames done ts (match_assignment_statement an ts).
Proof.
  intros an done ts. unfold match_assignment_statement, match_assignment.
  repeat (apply blames_assoc; apply blames_bind_demand; [blame|intros ? ? ? ? ?; cbv beta iota]).
  apply blames_assoc. blame. apply match_expression_blames.
Qed.

Lemma call_statement_blames : forall done ts, blames done ts (match_function_call_statement ts).
Proof.
  intros done ts. unfold match_function_call_statement, match_call.
  repeat (apply blames_assoc; apply blames_bind_demand; [blame|intros ? ? ? ? ?; cbv beta iota]).
  apply blames_assoc. apply blames_step; [apply call_arguments_blame; [apply match_expression_blames|known_read]|].
  intros ? ? ? ?. cbv beta iota. apply blames_assoc. blame; [apply optional_annotations_blame|].
  match goal with |- blames _ _ (bind_result (Some (mark_statement ?c)) _) => destruct c; cbn; try exact Logic.I end.
  exists []. reflexivity.
Qed.

Lemma return_blames : forall done ts, blames done ts (match_return ts).
Proof. intros done ts. unfold match_return. blame. apply match_expression_blames. Qed.

Section Statements.
Variable stmt : list lexeme -> result pstmt.
Hypothesis stmt_blames : forall done ts, blames done ts (stmt ts).

Lemma block_statements_blame : forall fuel done ts, blames done ts (block_statements stmt fuel ts).
Proof. induction fuel as [|fuel IH]; intros done ts; [exact Logic.I|]. cbn [block_statements]. blame. Qed.

Lemma block_blames : forall fuel done ts, blames done ts (match_block stmt fuel ts).
Proof. intros fuel done ts. unfold match_block. blame. apply block_statements_blame. Qed.

Lemma if_statement_blames : forall fuel an done ts, blames done ts (match_if_statement stmt fuel an ts).
Proof.
  induction fuel as [|fuel IH]; intros an done ts; [exact Logic.I|]. cbn [match_if_statement].
  blame; try apply match_expression_blames; try apply block_blames.
Qed.

Lemma while_blames : forall fuel an done ts, blames done ts (match_while stmt fuel an ts).
Proof. intros fuel an done ts. unfold match_while. blame; [apply match_expression_blames|apply block_blames]. Qed.

Ltac next_blames := apply blames_fail; let k := fresh in let O := fresh in intros k O; discriminate O.

Lemma annotated_statement_blames : forall fuel an done ts, blames done ts (match_annotated_statement stmt fuel an ts).
Proof.
  intros fuel an done ts. unfold match_annotated_statement.
  destruct (skip_comments ts) as [|[k x] r] eqn:S; [next_blames|].
  destruct k; try next_blames; auto using const_blames, let_blames, if_statement_blames, while_blames, assignment_blames.
Qed.

Lemma statement_step_blames : forall fuel done ts, blames done ts (statement_step stmt fuel ts).
Proof.
  intros fuel done ts. unfold statement_step.
  destruct (skip_comments ts) as [|[k x] r] eqn:S; [next_blames|].
  destruct k; try next_blames; auto using const_blames, let_blames, if_statement_blames, while_blames,
    static_assertion_blames, return_blames.
  - unfold match_assignment_or_call, peek at 1, expect. rewrite S. cbn [fst is token_type_eqb].
    destruct (peek_second _ ts); [apply assignment_blames|apply call_statement_blames].
  - blame. apply block_blames.
  - blame; [apply annotations_blame|apply annotated_statement_blames].
  - unfold match_break. blame.
  - unfold match_continue. blame.
Qed.
End Statements.

Lemma match_statement_blames : forall done ts, blames done ts (match_statement ts).
Proof.
  intros done ts. unfold match_statement. generalize (S (length ts)). intros fuel. revert done ts.
  induction fuel as [|fuel IH]; intros done ts; [exact Logic.I|]. apply statement_step_blames, IH.
Qed.

Lemma parameters_blame : forall fuel done ts, blames done ts (parameter_sequence fuel ts).
Proof.
  induction fuel as [|fuel IH]; intros done ts; [exact Logic.I|]. cbn [parameter_sequence]. unfold match_parameter. blame.
  apply match_type_blames.
Qed.

Lemma function_blames : forall an done ts, blames done ts (match_function an ts).
Proof.
  intros an done ts. unfold match_function, optional_requires.
  blame; try apply parameters_blame; try apply match_type_blames; try apply match_expression_blames.
  apply block_blames, match_statement_blames.
Qed.

Lemma const_declaration_blames : forall an done ts, blames done ts (const_declaration an ts).
Proof. intros an done ts. unfold const_declaration. blame. apply const_blames. Qed.

Lemma function_declaration_blames : forall an done ts, blames done ts (function_declaration an ts).
Proof. intros an done ts. unfold function_declaration. blame. apply function_blames. Qed.

Lemma declaration_blames : forall done ts, blames done ts (match_program_declaration ts).
Proof.
  intros done ts. unfold match_program_declaration.
  destruct (skip_comments ts) as [|[k x] r] eqn:S; [blame|].
  destruct k; try blame; auto using const_declaration_blames, function_declaration_blames, annotations_blame, static_assertion_blames.
  apply annotations_blame.
Qed.

Lemma program_blames : forall fuel done ts, blames done ts (program_declarations fuel ts).
Proof.
  induction fuel as [|fuel IH]; intros done ts; [exact Logic.I|]. cbn [program_declarations].
  apply blames_step; [apply declaration_blames|]. intros ? d ts1 ?. cbv beta iota.
  destruct (skip_comments ts1) as [|t r]; [apply blames_matched|]. blame.
Qed.

Lemma parse_blames : forall ts e, parse ts = Some (Err e) -> blamed [] ts e.
Proof.
  intros ts e H. unfold parse in H. pose proof (program_blames (S (length ts)) [] ts) as P.
  destruct (program_declarations (S (length ts)) ts) as [[[p r]|e'| |]|]; try discriminate H. injection H as <-. exact P.
Qed.
