(** C73: what the errors of the parser say about tokens.  An error names the tokens that were expected; the
    token that was found should not be one of them, and these should be the tokens with which the missing phrase
    can begin in the documented grammar. *)
From Coq Require Import ZArith Ascii String List Bool Lia.
From Verif Require Import Prelude Text Tables Tokenizer Annotations Ast Parse GrammarSpec ParseFacts ParseTotal ParseProps
  ParseExpected ParseBlame.
Import ListNotations.
Open Scope string_scope.
Open Scope list_scope.
Open Scope nat_scope.

(** A phrase can begin with this token. *)
Definition begins {A} (phrase : list lexeme -> A -> list lexeme -> Prop) (k : token_type) : Prop :=
  ~ In k comments /\ exists x ts a rest, phrase ((k, x) :: ts) a rest.

(** The statements and declarations that can have annotations. *)
Definition annotated (s : pstmt) : bool :=
  match s with PConst _ _ _ _ | PLet _ _ _ _ | PIf_Statement _ _ _ _ | PWhile _ _ _ | PAssignment _ _ _ => true | _ => false end.
Definition annotated_declaration (x : pdecl) : bool :=
  match x with PD_Function _ => true | PD_Statement s => annotated s end.

(** C73. Something is expected, and it is not what was found.  The exception: if a primary expression starts with a
    parenthesis, anything that fails in it is reported as if no primary expression was found
    (src/bms/parsing/parse.cpp:1468-1473). *)
Theorem C73_found_partial : forall ts e, parse ts = Some (Err e) ->
  pe_expected e <> [] /\
  forall k x rest, pe_rest e = (k, x) :: rest -> In k (pe_expected e) ->
    pe_rule e = gr_primary_expression /\ exists before y inside, ts = before ++ (tk_left_parenthesis, y) :: inside ++ pe_rest e.
Proof. intros ts e H. destruct (parse_sensible ts e H) as (N & _ & _ & F). split; [exact N|]. exact F. Qed.

(** C73. "Unexpected decimal literal; expected one of: ..., decimal literal, ...". *)
Theorem C73_found_refuted : exists ts e k x rest, ts = tokens_of "const x = (1 2); " /\ parse ts = Some (Err e) /\
  pe_rest e = (k, x) :: rest /\ In k (pe_expected e).
Proof.
  do 5 eexists. split; [reflexivity|]. split; [vm_compute; reflexivity|]. split; [reflexivity|]. vm_compute. tauto.
Qed.

(** * First tokens *)

Lemma token_first : forall k x ts k' y r, ~ In k comments -> token_then ((k, x) :: ts) k' y r -> k' = k.
Proof. intros k x ts k' y r N H. inversion H; subst; [reflexivity|contradiction]. Qed.

Lemma eats_first : forall k x ts k' r, ~ In k comments -> eats k' ((k, x) :: ts) r -> k' = k.
Proof. intros k x ts k' r N (y & H). eapply token_first; eassumption. Qed.

Lemma annotations_first : forall k x ts an r, ~ In k comments -> annotations_phrase ((k, x) :: ts) an r ->
  r = (k, x) :: ts \/ k = tk_at.
Proof.
  intros k x ts an r N H. inversion H as [|? a r1 l rest A]; subst; [left; reflexivity|]. right.
  inversion A; subst; symmetry; eapply eats_first; eassumption.
Qed.

Lemma here : forall k x ts, ~ In k comments -> token_then ((k, x) :: ts) k x ts.
Proof. intros. constructor. assumption. Qed.

Lemma eats_here : forall k x ts, ~ In k comments -> eats k ((k, x) :: ts) ts.
Proof. intros k x ts N. exists x. apply here, N. Qed.

Ltac plain := let H := fresh in intros H; cbn in H; intuition discriminate.

Lemma one_primary : forall x ts, derive documented n_primary ((tk_decimal_literal, x) :: ts) (PLiteral x tk_decimal_literal) ts.
Proof. intros x ts. eapply d_literal; [apply here; plain|]. left. cbn. tauto. Qed.

Lemma one : forall x ts, derive documented n_expression ((tk_decimal_literal, x) :: ts) (PLiteral x tk_decimal_literal) ts.
Proof.
  intros x ts. apply d_expression, d_binary, d_operand; [exact Logic.I|]. apply d_postfix, d_is_primary, one_primary.
Qed.

Lemma in_parentheses : forall x y z ts,
  derive documented n_parenthesized ((tk_left_parenthesis, x) :: (tk_decimal_literal, y) :: (tk_right_parenthesis, z) :: ts)
    (PLiteral y tk_decimal_literal) ts.
Proof. intros x y z ts. eapply d_parenthesized; [apply eats_here; plain|apply one|apply eats_here; plain]. Qed.

Lemma empty_block : forall x y ts, block_phrase documented ((tk_left_brace, x) :: (tk_right_brace, y) :: ts) [] ts.
Proof. intros x y ts. eapply block_intro; [apply eats_here; plain|apply sts_none|apply eats_here; plain]. Qed.

Lemma uninitialized : forall an, let_phrase documented an
  [(tk_keyword_let, []); (tk_identifier, []); (tk_colon, []); (tk_keyword_int, []); (tk_semicolon, [])]
  (PLet [] an (Some (PType tt_Int None)) None) [].
Proof.
  intros an. eapply let_uninitialized; [apply eats_here; plain|apply here; plain|apply eats_here; plain| |apply eats_here; plain].
  apply d_int, eats_here. plain.
Qed.

Lemma a_constant : forall an, const_phrase documented an
  [(tk_keyword_const, []); (tk_identifier, []); (tk_assign, []); (tk_decimal_literal, []); (tk_semicolon, [])]
  (PConst [] an None (PLiteral [] tk_decimal_literal)) [].
Proof.
  intros an. eapply const_intro; [apply eats_here; plain|apply here; plain|apply tp_none| |apply eats_here; plain].
  eexists. split; [apply eats_here; plain|apply one].
Qed.

Lemma an_assertion : assertion_phrase documented
  [(tk_keyword_static_assert, []); (tk_left_parenthesis, []); (tk_decimal_literal, []); (tk_right_parenthesis, []); (tk_semicolon, [])]
  (PStatic_Assert (PLiteral [] tk_decimal_literal)) [].
Proof. eapply assertion_intro; [apply eats_here; plain|apply in_parentheses|apply eats_here; plain]. Qed.

Ltac first_with w :=
  split; [plain|]; exists []; exists w; eexists; eexists.

(** Types. *)
Theorem C73_type : forall ts e, parse ts = Some (Err e) -> pe_rule e = gr_type ->
  forall k, In k (pe_expected e) <-> begins (derive_type documented) k.
Proof.
  intros ts e H R k. destruct (parse_sensible ts e H) as (_ & W & _). rewrite R in W. cbn [known] in W. rewrite W. clear. split.
  - intros I. cbn [In] in I. repeat destruct I as [<-|I]; try destruct I.
    + first_with (@nil lexeme). apply d_void, eats_here. plain.
    + first_with (@nil lexeme). apply d_bool, eats_here. plain.
    + first_with (@nil lexeme). apply d_int, eats_here. plain.
    + first_with [(tk_left_parenthesis, @nil ascii); (tk_decimal_literal, []); (tk_right_parenthesis, [])].
      eapply d_uint; [apply eats_here; plain|apply in_parentheses].
  - intros (N & x & ts & a & rest & D).
    inversion D; subst; match goal with E : eats _ ((k, x) :: ts) _ |- _ => apply (eats_first _ _ _ _ _ N) in E; subst k end; cbn; tauto.
Qed.

Lemma let_first : forall d an ts s r, let_phrase d an ts s r -> exists r', eats tk_keyword_let ts r'.
Proof. intros d an ts s r H. inversion H; subst; eexists; eassumption. Qed.
Lemma const_first : forall d an ts s r, const_phrase d an ts s r -> exists r', eats tk_keyword_const ts r'.
Proof. intros d an ts s r H. inversion H; subst; eexists; eassumption. Qed.
Lemma assertion_first : forall d ts s r, assertion_phrase d ts s r -> exists r', eats tk_keyword_static_assert ts r'.
Proof. intros d ts s r H. inversion H; subst; eexists; eassumption. Qed.
Lemma assignment_first : forall d an ts s r, assignment_phrase d an ts s r -> exists r', eats tk_identifier ts r'.
Proof. intros d an ts s r H. inversion H; subst; eexists; eexists; eassumption. Qed.
Lemma if_first : forall d an ts s r, if_phrase d an ts s r -> exists r', eats tk_keyword_if ts r'.
Proof. intros d an ts s r H. inversion H; subst; eexists; eassumption. Qed.
Lemma block_first : forall d ts s r, block_phrase d ts s r -> exists r', eats tk_left_brace ts r'.
Proof. intros d ts s r H. inversion H; subst; eexists; eassumption. Qed.
Lemma function_first : forall d an ts s r, function_phrase d an ts s r -> exists r', eats tk_keyword_function ts r'.
Proof. intros d an ts s r H. inversion H; subst; eexists; eassumption. Qed.
Lemma call_eats : forall d ts e rest, derive d n_call ts e rest -> exists r', eats tk_identifier ts r'.
Proof. intros d ts e rest H. inversion H; subst; eexists; eexists; eassumption. Qed.

(** The first token of a statement, and of one that comes without annotations. *)
Lemma statement_first : forall d k x ts s rest, ~ In k comments -> statement_phrase d ((k, x) :: ts) s rest ->
  k = tk_at /\ annotated s = true \/ k <> tk_at /\ In k expected_statements /\
    (annotated s = true -> In k [tk_keyword_let; tk_keyword_const; tk_keyword_if; tk_keyword_while; tk_identifier]).
Proof.
  intros d k x ts s rest N H.
  assert (X : forall k' r, eats k' ((k, x) :: ts) r -> k' = k) by (intros k' r; apply (eats_first _ _ _ _ _ N)).
  inversion H as [? an r1 ? ? A L|? an r1 ? ? A L|? ? ? L|? an r1 ? ? A L|? nm args an r1 ? L ?|? r1 ? E ?|? r1 ? E ?|? r1 ? E ?|? r1 ? ? ? E ?|? an r1 ? ? A L|? an r1 r2 ? ? ? ? A E ?|? b ? L]; subst.
  all: try (destruct (annotations_first _ _ _ _ _ N A) as [->| ->];
    [|left; split; [reflexivity|]; try (inversion L; subst); reflexivity]).
  all: right.
  - pose proof L as L'. apply let_first in L as (r & L). apply X in L. subst k. split; [discriminate|]. split; cbn; tauto.
  - apply const_first in L as (r & L). apply X in L. subst k. split; [discriminate|]. split; cbn; tauto.
  - pose proof L as L'. apply assertion_first in L as (r & L). apply X in L. subst k. split; [discriminate|]. split; [cbn; tauto|].
    inversion L'; subst. discriminate.
  - apply assignment_first in L as (r & L). apply X in L. subst k. split; [discriminate|]. split; cbn; tauto.
  - apply call_eats in L as (r & L). apply X in L. subst k. split; [discriminate|]. split; cbn; [tauto|discriminate].
  - apply X in E. subst k. split; [discriminate|]. split; cbn; [tauto|discriminate].
  - apply X in E. subst k. split; [discriminate|]. split; cbn; [tauto|discriminate].
  - apply X in E. subst k. split; [discriminate|]. split; cbn; [tauto|discriminate].
  - apply X in E. subst k. split; [discriminate|]. split; cbn; [tauto|discriminate].
  - apply if_first in L as (r & L). apply X in L. subst k. split; [discriminate|]. split; cbn; tauto.
  - apply X in E. subst k. split; [discriminate|]. split; cbn; tauto.
  - apply block_first in L as (r & L). apply X in L. subst k. split; [discriminate|]. split; cbn; [tauto|discriminate].
Qed.

(** Each of them begins a statement. *)
Lemma first_statement : forall k, In k expected_statements -> begins (statement_phrase documented) k.
Proof.
  intros k I. unfold expected_statements in I. cbn [In] in I. repeat destruct I as [<-|I]; try destruct I.
  - split; [plain|]. eexists. eexists. eexists. eexists. eapply st_let; [apply as_none|apply uninitialized].
  - split; [plain|]. eexists. eexists. eexists. eexists. eapply st_const; [apply as_none|apply a_constant].
  - split; [plain|]. eexists. eexists. eexists. eexists. eapply st_assertion, an_assertion.
  - first_with [(tk_semicolon, @nil ascii)]. eapply st_break; apply eats_here; plain.
  - first_with [(tk_semicolon, @nil ascii)]. eapply st_continue; apply eats_here; plain.
  - first_with [(tk_semicolon, @nil ascii)]. eapply st_return_nothing; apply eats_here; plain.
  - first_with [(tk_decimal_literal, @nil ascii); (tk_left_brace, []); (tk_right_brace, [])].
    eapply st_if; [apply as_none|]. eapply if_only; [apply eats_here; plain|apply one|apply empty_block].
  - first_with [(tk_decimal_literal, @nil ascii); (tk_left_brace, []); (tk_right_brace, [])].
    eapply st_while; [apply as_none|apply eats_here; plain|apply one|apply empty_block].
  - first_with [(tk_right_brace, @nil ascii)]. apply st_block, empty_block.
  - first_with ([(tk_identifier, @nil ascii)] ++ [(tk_keyword_let, []); (tk_identifier, []); (tk_colon, []); (tk_keyword_int, []); (tk_semicolon, [])]).
    cbn [app]. eapply st_let; [|apply uninitialized]. eapply as_more; [|apply as_none].
    eapply annotation_bare; [apply eats_here; plain|apply here; plain].
  - first_with [(tk_assign, @nil ascii); (tk_decimal_literal, []); (tk_semicolon, [])].
    eapply st_assignment; [apply as_none|]. eapply assignment_intro; [apply here; plain|apply eats_here; plain|apply one|apply eats_here; plain].
Qed.

(** C73. The expected tokens are the first tokens of statements; after annotations, of statements that can have
    annotations. *)
Theorem C73_statement : forall ts e, parse ts = Some (Err e) -> pe_rule e = gr_statement ->
  (forall k, In k (pe_expected e) <-> begins (statement_phrase documented) k) \/
  (forall k, In k (pe_expected e) <->
     k <> tk_at /\ begins (fun ts s rest => statement_phrase documented ts s rest /\ annotated s = true) k).
Proof.
  intros ts e H R. destruct (parse_sensible ts e H) as (_ & W & _). rewrite R in W. cbn [known] in W.
  destruct W as [-> | ->]; clear; [left|right]; intros k; split.
  - apply first_statement.
  - intros (N & x & ts & s & rest & P). destruct (statement_first _ _ _ _ _ _ N P) as [(-> & _)|(_ & I & _)]; [cbn; tauto|exact I].
  - intros I. cbn [In] in I. repeat destruct I as [<-|I]; try destruct I; (split; [discriminate|]); (split; [plain|]).
    + eexists. eexists. eexists. eexists. split; [eapply st_let; [apply as_none|apply uninitialized]|reflexivity].
    + eexists. eexists. eexists. eexists. split; [eapply st_const; [apply as_none|apply a_constant]|reflexivity].
    + exists [], [(tk_decimal_literal, @nil ascii); (tk_left_brace, []); (tk_right_brace, [])]. eexists. eexists.
      split; [|]. { eapply st_if; [apply as_none|]. eapply if_only; [apply eats_here; plain|apply one|apply empty_block]. } reflexivity.
    + exists [], [(tk_decimal_literal, @nil ascii); (tk_left_brace, []); (tk_right_brace, [])]. eexists. eexists.
      split; [|]. { eapply st_while; [apply as_none|apply eats_here; plain|apply one|apply empty_block]. } reflexivity.
    + exists [], [(tk_assign, @nil ascii); (tk_decimal_literal, []); (tk_semicolon, [])]. eexists. eexists.
      split; [|]. { eapply st_assignment; [apply as_none|]. eapply assignment_intro; [apply here; plain|apply eats_here; plain|apply one|apply eats_here; plain]. } reflexivity.
  - intros (A & N & x & ts & s & rest & P & C). destruct (statement_first _ _ _ _ _ _ N P) as [(-> & _)|(_ & _ & I)]; [destruct (A eq_refl)|].
    apply I, C.
Qed.

Lemma declaration_first : forall d k x ts s rest, ~ In k comments -> declaration_phrase d ((k, x) :: ts) s rest ->
  k = tk_at /\ annotated_declaration s = true \/ k <> tk_at /\ In k [tk_keyword_const; tk_keyword_function; tk_keyword_static_assert] /\
    (annotated_declaration s = true -> In k [tk_keyword_const; tk_keyword_function]).
Proof.
  intros d k x ts s rest N H.
  assert (X : forall k' r, eats k' ((k, x) :: ts) r -> k' = k) by (intros k' r; apply (eats_first _ _ _ _ _ N)).
  inversion H as [? an r1 ? ? A L|? an r1 ? ? A L|? ? ? L]; subst.
  - destruct (annotations_first _ _ _ _ _ N A) as [->| ->]; [|left; split; [reflexivity|]; inversion L; subst; reflexivity].
    right. apply const_first in L as (r & L). apply X in L. subst k. split; [discriminate|]. split; cbn; tauto.
  - destruct (annotations_first _ _ _ _ _ N A) as [->| ->]; [|left; split; reflexivity].
    right. apply function_first in L as (r & L). apply X in L. subst k. split; [discriminate|]. split; cbn; tauto.
  - right. pose proof L as L'. apply assertion_first in L as (r & L). apply X in L. subst k. split; [discriminate|].
    split; [cbn; tauto|]. inversion L'; subst. discriminate.
Qed.

Lemma a_function : forall an, function_phrase documented an
  [(tk_keyword_function, []); (tk_identifier, []); (tk_left_parenthesis, []); (tk_right_parenthesis, []); (tk_right_arrow, []);
   (tk_keyword_int, []); (tk_left_brace, []); (tk_right_brace, [])]
  (PFunc [] an [] (PType tt_Int None) None []) [].
Proof.
  intros an. eapply function_intro; [apply eats_here; plain|apply here; plain|apply eats_here; plain| | | | | |].
  - left. split; reflexivity.
  - apply eats_here; plain.
  - apply eats_here; plain.
  - apply d_int, eats_here; plain.
  - apply rq_none.
  - apply empty_block.
Qed.

(** The same for declarations. *)
Theorem C73_declaration : forall ts e, parse ts = Some (Err e) -> pe_rule e = gr_program_declaration ->
  (forall k, In k (pe_expected e) <-> begins (declaration_phrase documented) k) \/
  (forall k, In k (pe_expected e) <->
     k <> tk_at /\ begins (fun ts s rest => declaration_phrase documented ts s rest /\ annotated_declaration s = true) k).
Proof.
  intros ts e H R. destruct (parse_sensible ts e H) as (_ & W & _). rewrite R in W. cbn [known] in W.
  destruct W as [-> | ->]; clear; [left|right]; intros k; split.
  - intros I. cbn [In] in I. repeat destruct I as [<-|I]; try destruct I; (split; [plain|]).
    + eexists. eexists. eexists. eexists. eapply dp_const; [apply as_none|apply a_constant].
    + eexists. eexists. eexists. eexists. eapply dp_function; [apply as_none|apply a_function].
    + eexists. eexists. eexists. eexists. eapply dp_assertion, an_assertion.
    + exists []. exists ((tk_identifier, []) :: [(tk_keyword_const, []); (tk_identifier, []); (tk_assign, []); (tk_decimal_literal, []); (tk_semicolon, [])]).
      eexists. eexists. eapply dp_const; [|apply a_constant]. eapply as_more; [|apply as_none].
      eapply annotation_bare; [apply eats_here; plain|apply here; plain].
  - intros (N & x & ts & s & rest & P). destruct (declaration_first _ _ _ _ _ _ N P) as [(-> & _)|(_ & I & _)]; cbn in *; tauto.
  - intros I. cbn [In] in I. repeat destruct I as [<-|I]; try destruct I; (split; [discriminate|]); (split; [plain|]).
    + eexists. eexists. eexists. eexists. split; [eapply dp_const; [apply as_none|apply a_constant]|reflexivity].
    + eexists. eexists. eexists. eexists. split; [eapply dp_function; [apply as_none|apply a_function]|reflexivity].
  - intros (A & N & x & ts & s & rest & P & C). destruct (declaration_first _ _ _ _ _ _ N P) as [(-> & _)|(_ & _ & I)]; [destruct (A eq_refl)|].
    apply I, C.
Qed.

(** Primary expressions: all that are listed can begin one, but [true] and [false] are not listed. *)
Theorem C73_primary_partial : forall ts e, parse ts = Some (Err e) -> pe_rule e = gr_primary_expression ->
  forall k, In k (pe_expected e) <->
    begins (derive documented n_primary) k /\ k <> tk_keyword_true /\ k <> tk_keyword_false.
Proof.
  intros ts e H R k. destruct (parse_sensible ts e H) as (_ & W & _). rewrite R in W. cbn [known] in W. rewrite W. clear. split.
  - intros I. unfold expected_primaries in I. cbn [In] in I. repeat destruct I as [<-|I]; try destruct I;
      (split; [split; [plain|]|split; discriminate]).
    1-4: exists [], []; eexists; exists []; eapply d_literal; [apply here; plain|left; cbn; tauto].
    + exists [], []. eexists. exists []. apply d_identifier, here. plain.
    + exists [], [(tk_decimal_literal, []); (tk_right_parenthesis, [])]. eexists. eexists. apply d_is_parenthesized, in_parentheses.
  - intros ((N & x & ts & a & rest & D) & T & F). inversion D; subst.
    + match goal with E : token_then ((k, x) :: ts) _ _ _, L : _ \/ _ |- _ =>
        apply (token_first _ _ _ _ _ _ N) in E; subst k; destruct L as [L|(L & _)]; [|discriminate L] end.
      cbn in *. intuition congruence.
    + match goal with E : token_then ((k, x) :: ts) _ _ _ |- _ => apply (token_first _ _ _ _ _ _ N) in E; subst k end. cbn. tauto.
    + match goal with P : derive _ n_parenthesized _ _ _ |- _ => inversion P; subst end.
      match goal with E : eats _ ((k, x) :: ts) _ |- _ => apply (eats_first _ _ _ _ _ N) in E; subst k end. cbn. tauto.
Qed.

Theorem C73_primary_refuted : exists ts e k, ts = tokens_of "const x = ; " /\ parse ts = Some (Err e) /\
  pe_rule e = gr_primary_expression /\ begins (derive documented n_primary) k /\ ~ In k (pe_expected e).
Proof.
  exists (tokens_of "const x = ; "). eexists. exists tk_keyword_true. split; [reflexivity|]. split; [vm_compute; reflexivity|].
  split; [reflexivity|]. split; [|plain]. split; [plain|]. exists [], []. eexists. exists []. eapply d_literal; [apply here; plain|left; cbn; tauto].
Qed.

(** Arguments of annotations: the whole argument, or, after its name, [=] or a value. *)
Theorem C73_argument : forall ts e, parse ts = Some (Err e) -> pe_rule e = gr_annotation_argument ->
  pe_expected e = [tk_assign] \/
  (forall k, In k (pe_expected e) <-> In k literals) \/
  (forall k, In k (pe_expected e) <-> begins annotation_arg k).
Proof.
  intros ts e H R. destruct (parse_sensible ts e H) as (_ & W & _). rewrite R in W. cbn [known] in W.
  destruct W as [W|[->| ->]]; [left; exact W|right; left|right; right]; clear; intros k; [cbn; tauto|]. split.
  - intros I. cbn [In] in I. destruct I as [<-|I].
    + first_with [(tk_assign, @nil ascii); (tk_decimal_literal, [])].
      eapply aa_named; [apply here; plain|apply eats_here; plain|apply here; plain|cbn; tauto|reflexivity].
    + unfold expected_values in I. cbn [In] in I. repeat destruct I as [<-|I]; try destruct I.
      5:{ split; [plain|]. exists ["a"; "a"]%char, []. eexists. eexists.
          eapply aa_positional; [apply here; plain|cbn; tauto|exists "a"%char, "a"%char; cbn; change ["a"%char; "a"%char] with ("a"%char :: [] ++ ["a"%char]); reflexivity]. }
      all: first_with (@nil lexeme); eapply aa_positional; [apply here; plain|cbn; tauto|reflexivity].
  - intros (N & x & ts & a & rest & D). inversion D; subst.
    + match goal with E : token_then ((k, x) :: ts) _ _ _, L : In _ literals |- _ =>
        apply (token_first _ _ _ _ _ _ N) in E; subst k; cbn in L |- *; tauto end.
    + match goal with E : token_then ((k, x) :: ts) _ _ _ |- _ => apply (token_first _ _ _ _ _ _ N) in E; subst k end. cbn. tauto.
Qed.

(** Where one comparison operator must come, all of them are listed; for the other rules one token is
    listed, which is one of those that are written in the rule of the grammar. *)
Theorem C73_comparison : forall ts e, parse ts = Some (Err e) -> pe_rule e = gr_comparison_expression ->
  forall k, In k (pe_expected e) <-> In k comparison_operators.
Proof.
  intros ts e H R k. destruct (parse_sensible ts e H) as (_ & W & _). rewrite R in W. cbn [known] in W. rewrite W. reflexivity.
Qed.

Theorem C73_one_token : forall ts e, parse ts = Some (Err e) ->
  ~ In (pe_rule e) [gr_type; gr_statement; gr_program_declaration; gr_primary_expression; gr_comparison_expression; gr_annotation_argument] ->
  exists k, pe_expected e = [k] /\ In k (terminals (pe_rule e)).
Proof.
  intros ts e H R. destruct (parse_sensible ts e H) as (_ & W & _). destruct (pe_rule e); try exact W; destruct R; cbn; tauto.
Qed.

(** The rule that is named has been entered: where another token than its first one is expected, the first one was read
    before. Rules that start with expressions, and those that expect several tokens, are not marked in this way. *)
Theorem C73_entered : forall ts e k, parse ts = Some (Err e) -> opener (pe_rule e) = Some k ->
  pe_expected e = [k] \/ exists before x between, ts = before ++ (k, x) :: between ++ pe_rest e.
Proof.
  intros ts e k H O. destruct (parse_blames ts e H k O) as [E|(p & -> & I)]; [left; exact E|right].
  cbn [app] in I. apply in_map_iff in I. destruct I as ([k' x] & E & I). cbn in E. subst k'.
  apply in_split in I. destruct I as (a & b & ->). exists a, x, b. rewrite <- app_assoc. reflexivity.
Qed.
Example C73_entered_example : exists e, parse (tokens_of "function f() -> Int { let 1; } ") = Some (Err e) /\
  pe_rule e = gr_let_declaration /\ pe_expected e = [tk_identifier] /\ opener (pe_rule e) = Some tk_keyword_let.
Proof. eexists. split; [vm_compute; reflexivity|]. repeat split. Qed.

(** C73. Not all tokens are listed with which the program could go on: after an expression, an operator could
    follow, and after a name at the beginning of a statement also [=]. *)
Theorem C73_all_refuted : exists before k x after p rest e, parse (before ++ (k, x) :: after) = Some (Ok p) /\
  parse (before ++ rest) = Some (Err e) /\ pe_rest e = rest /\ ~ In k (pe_expected e) /\
  before ++ rest = tokens_of "const x = 1 2; ".
Proof.
  exists (tokens_of "const x = 1 "), tk_plus, (str "+"), (tokens_of "2; "). eexists. exists (tokens_of "2; "). eexists.
  split; [vm_compute; reflexivity|]. split; [vm_compute; reflexivity|]. split; [reflexivity|]. split; [plain|]. vm_compute. reflexivity.
Qed.
Theorem C73_assignment_refuted : exists before k x after p rest e, parse (before ++ (k, x) :: after) = Some (Ok p) /\
  parse (before ++ rest) = Some (Err e) /\ pe_rest e = rest /\ ~ In k (pe_expected e) /\
  before ++ rest = tokens_of "function f() -> Int { x; } ".
Proof.
  exists (tokens_of "function f() -> Int { x "), tk_assign, (str "="), (tokens_of "2; } "). eexists. exists (tokens_of "; } "). eexists.
  split; [vm_compute; reflexivity|]. split; [vm_compute; reflexivity|]. split; [reflexivity|]. split; [plain|]. vm_compute. reflexivity.
Qed.

(** Errors of these kinds. *)
Example C73_examples :
  map (fun s => match parse (tokens_of s) with Some (Err e) => Some (pe_rule e, hd_error (map fst (pe_rest e)), length (pe_expected e)) | _ => None end)
    ["function f() -> Int { 5 } "; "const x: 5 = 1; "; "5 "; "@a 5 "; "const 5 = 1; "; "function f() -> Int { @a 5 } "; "const x = ] "; "const x = f(a, b == c); "]
  = [Some (gr_statement, Some tk_decimal_literal, 11); Some (gr_type, Some tk_decimal_literal, 4);
     Some (gr_program_declaration, Some tk_decimal_literal, 4); Some (gr_program_declaration, Some tk_decimal_literal, 2);
     Some (gr_const_declaration, Some tk_decimal_literal, 1); Some (gr_statement, Some tk_decimal_literal, 5);
     Some (gr_program_declaration, None, 4); Some (gr_comparison_expression, Some tk_comma, 6)].
Proof. vm_compute. reflexivity. Qed.

(** * Assumptions of the theorems above *)
Print Assumptions C73_found_partial.
Print Assumptions C73_found_refuted.
Print Assumptions C73_type.
Print Assumptions C73_statement.
Print Assumptions C73_declaration.
Print Assumptions C73_primary_partial.
Print Assumptions C73_primary_refuted.
Print Assumptions C73_argument.
Print Assumptions C73_comparison.
Print Assumptions C73_one_token.
Print Assumptions C73_entered.
Print Assumptions C73_all_refuted.
Print Assumptions C73_assignment_refuted.
