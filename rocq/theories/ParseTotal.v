(** The parser always ends, and aborts only for malformed annotations. *)
From Coq Require Import ZArith Ascii String List Bool Lia.
From Verif Require Import Prelude Text Tables Annotations Ast Parse GrammarSpec ParseFacts ParseComplete.
Import ListNotations.
Open Scope string_scope.
Open Scope list_scope.
Open Scope Z_scope.

(** The tokens for which the parser may abort. *)
Definition bad (ts : list lexeme) : Prop := malformed_annotation ts \/ ~ quoted ts.

Lemma bad_app : forall p ts, bad ts -> bad (p ++ ts).
Proof.
  intros p ts [(b & h & r1 & nm & r2 & r3 & E & H)|H].
  - left. exists (p ++ b), h, r1, nm, r2, r3. split; [|exact H]. rewrite E. apply app_assoc.
  - right. intros Q. apply H. intros x I1. apply Q. apply in_or_app. right. exact I1.
Qed.

(** [rest] is an end of [ts], a proper one if [strict]. *)
Definition ends (strict : bool) (ts rest : list lexeme) : Prop :=
  exists p, ts = p ++ rest /\ (strict = true -> p <> []).

Lemma ends_refl : forall ts, ends false ts ts.
Proof. intros ts. exists []. split; [reflexivity | discriminate]. Qed.

Lemma ends_trans : forall s1 s2 a b c, ends s1 a b -> ends s2 b c -> ends (s1 || s2) a c.
Proof.
  intros s1 s2 a b c (p & -> & P) (q & -> & Q). exists (p ++ q). split; [apply app_assoc|].
  intros S E. apply app_eq_nil in E. destruct E as [-> ->]. destruct s1; cbn in S.
  - apply P; reflexivity.
  - apply Q; [exact S | reflexivity].
Qed.

Lemma ends_weaken : forall s a b, ends s a b -> ends false a b.
Proof. intros s a b (p & -> & _). exists p. split; [reflexivity | discriminate]. Qed.

Lemma ends_length : forall a b, ends true a b -> (length b < length a)%nat.
Proof.
  intros a b (p & -> & P). rewrite app_length. destruct p; [|cbn; lia].
  exfalso. apply P; reflexivity.
Qed.

Lemma ends_le : forall s a b, ends s a b -> (length b <= length a)%nat.
Proof. intros s a b (p & -> & _). rewrite app_length. lia. Qed.

Lemma skip_ends : forall ts, ends false ts (skip_comments ts).
Proof.
  induction ts as [|[k x] ts (p & E & _)]; [apply ends_refl|]. cbn. destruct (tk_is_comment k).
  - exists ((k, x) :: p). split; [cbn; f_equal; exact E | discriminate].
  - apply ends_refl.
Qed.

Lemma token_ends : forall ts k x rest, token_then ts k x rest -> ends true ts rest.
Proof.
  intros ts k x rest H. apply token_then_suffix in H. destruct H as (p & E & P).
  exists p. split; [exact E | intros _; exact P].
Qed.

(** A result that is no surprise. *)
Definition good {A} (strict : bool) (ts : list lexeme) (r : result A) : Prop :=
  match r with
  | Some (Ok (_, rest)) => ends strict ts rest
  | Some (Err e) => ends false ts (pe_rest e)
  | Some Abort => bad ts
  | Some UB => False
  | None => False
  end.

Lemma good_matched : forall A (a : A) ts, good false ts (matched a ts).
Proof. intros A a ts. apply ends_refl. Qed.

Lemma good_fail : forall A s rule ts, good s ts (@fail A rule ts).
Proof. intros A s rule ts. apply skip_ends. Qed.

Lemma good_from : forall A s1 s2 s3 ts ts' (r : result A),
  ends s1 ts ts' -> good s2 ts' r -> (s3 = true -> s1 || s2 = true) -> good s3 ts r.
Proof.
  intros A s1 s2 s3 ts ts' r E G S. destruct r as [[[a rest]|e| |]|]; cbn in *.
  - pose proof (ends_trans _ _ _ _ _ E G) as T. destruct s3; [rewrite <- (S eq_refl); exact T|].
    eapply ends_weaken. exact T.
  - eapply ends_weaken. eapply (ends_trans s1 false); eassumption.
  - destruct E as (p & -> & _). apply bad_app. exact G.
  - exact G.
  - exact G.
Qed.

Lemma good_weaken : forall A s ts (r : result A), good s ts r -> good false ts r.
Proof. intros A s ts r G. eapply good_from; [apply ends_refl | exact G | discriminate]. Qed.

Lemma good_bind : forall A B s1 s2 s3 ts (m : result A) (k : A * list lexeme -> result B),
  good s1 ts m ->
  (forall a rest, m = matched a rest -> ends s1 ts rest -> good s2 rest (k (a, rest))) ->
  (s3 = true -> s1 || s2 = true) ->
  good s3 ts (bind_result m k).
Proof.
  intros A B s1 s2 s3 ts m k G K S. destruct m as [[[a rest]|e| |]|]; cbn in G |- *.
  - eapply good_from; [exact G | | exact S]. apply K; [reflexivity | exact G].
  - exact G.
  - exact G.
  - exact G.
  - exact G.
Qed.

Lemma good_demand : forall p rule ts, good true ts (demand p rule ts).
Proof.
  intros p rule ts. unfold demand. destruct (expect p ts) as [[t r]|] eqn:E.
  - apply expect_some in E. destruct E as [E _]. eapply token_ends. exact E.
  - apply good_fail.
Qed.

Lemma expect_ends : forall p ts t rest, expect p ts = Some (t, rest) -> ends true ts rest.
Proof. intros p ts t rest E. apply expect_some in E. destruct E as [E _]. eapply token_ends. exact E. Qed.

(** Steps: [gdemand] takes a demanded token, [gstep G] a part that is good by [G]. *)
Ltac gdemand := eapply good_bind; [apply good_demand | | try reflexivity].
Ltac gstep G := eapply good_bind; [apply G | | try reflexivity].

(** ** Annotations *)

Lemma token_in : forall ts k x rest, token_then ts k x rest -> In (k, x) ts.
Proof. induction 1; [left; reflexivity | right; assumption]. Qed.

Lemma good_annotation_argument : forall ts, good true ts (match_annotation_argument ts).
Proof.
  intros ts. unfold match_annotation_argument.
  eapply (good_bind _ _ false true).
  - destruct (expect (is tk_identifier) ts) as [[k ts1]|] eqn:E.
    + eapply good_from; [eapply expect_ends; exact E | | discriminate].
      eapply (good_bind _ _ true false false); [apply good_demand | | discriminate].
      intros a rest _ _. apply good_matched.
    + apply good_matched.
  - intros key rest _ _. unfold demand. destruct (expect tk_is_literal rest) as [[v rest']|] eqn:E;
      [|apply good_fail].
    apply expect_some in E. destruct E as [E _]. pose proof (token_ends _ _ _ _ E) as T.
    cbn [matched bind_result]. destruct (is tk_string_literal (fst v)) eqn:SL; [|exact T].
    destruct (2 <=? length (snd v))%nat eqn:N; [exact T|].
    right. intros Q. apply Nat.leb_gt in N. apply is_iff in SL. rewrite SL in E.
    apply token_in in E. apply Q in E. lia.
  - reflexivity.
Qed.

Lemma good_annotation_arguments : forall fuel ts,
  (length ts < fuel)%nat -> good true ts (annotation_arguments fuel ts).
Proof.
  induction fuel as [|fuel IH]; intros ts L; [lia|]. cbn [annotation_arguments].
  eapply (good_bind _ _ true false); [apply good_annotation_argument | | reflexivity].
  intros a rest _ E. apply ends_length in E. destruct (expect (is tk_comma) rest) as [[c r2]|] eqn:C.
  - pose proof (expect_ends _ _ _ _ C) as E2. eapply good_from; [exact E2 | | discriminate].
    eapply (good_bind _ _ true false false); [apply IH; apply ends_length in E2; lia | | discriminate].
    intros l r3 _ _. apply good_matched.
  - apply good_matched.
Qed.

Lemma good_argument_list : forall ts, good false ts (annotation_argument_list ts).
Proof.
  intros ts. unfold annotation_argument_list.
  destruct (expect (is tk_left_parenthesis) ts) as [[p r1]|] eqn:P; [|apply good_matched].
  eapply good_from; [eapply expect_ends; exact P | | discriminate].
  destruct (expect (is tk_right_parenthesis) r1) as [[q r2]|] eqn:Q.
  - cbn. apply (ends_weaken true). eapply expect_ends. exact Q.
  - eapply (good_bind _ _ true false false); [apply good_annotation_arguments; lia | | discriminate].
    intros l r2 _ _. cbv beta iota.
    eapply (good_bind _ _ true false false); [apply good_demand | | discriminate].
    intros q r3 _ _. apply good_matched.
Qed.

Lemma good_annotation : forall ts, good true ts (match_annotation ts).
Proof.
  intros ts. unfold match_annotation, demand.
  destruct (expect (is tk_at) ts) as [[a r1]|] eqn:A; [|apply good_fail].
  cbn [matched bind_result].
  destruct (expect (is tk_identifier) r1) as [[nm r2]|] eqn:N;
    [|eapply good_from; [eapply expect_ends; exact A | apply (good_fail _ false) | reflexivity]].
  cbn [matched bind_result].
  pose proof (expect_ends _ _ _ _ A) as E1. pose proof (expect_ends _ _ _ _ N) as E2.
  pose proof (ends_trans _ _ _ _ _ E1 E2) as E12.
  pose proof (good_argument_list r2) as G.
  destruct (annotation_argument_list r2) as [[[args r3]|e| |]|] eqn:L.
  - cbn in G |- *. eapply (ends_trans true false); eassumption.
  - left. destruct (expect (is tk_left_parenthesis) r2) as [[p r3]|] eqn:P.
    + exists [], ts, r1, (snd nm), r2, r3. split; [reflexivity|].
      split; [eapply expect_eats; exact A|]. split; [apply expect_is; exact N|].
      split; [eapply expect_eats; exact P|]. intros (args & rest & D).
      apply argument_list_complete in D. rewrite D in L. discriminate L.
    + unfold annotation_argument_list in L. rewrite P in L. discriminate L.
  - destruct E12 as (p & -> & _). cbn in G |- *. apply bad_app. exact G.
  - exact G.
  - exact G.
Qed.

Lemma good_annotation_sequence : forall fuel ts,
  (length ts < fuel)%nat -> good true ts (annotation_sequence fuel ts).
Proof.
  induction fuel as [|fuel IH]; intros ts L; [lia|]. cbn [annotation_sequence].
  eapply (good_bind _ _ true false); [apply good_annotation | | reflexivity].
  intros a rest _ E. apply ends_length in E. destruct (peek (is tk_at) rest).
  - eapply (good_bind _ _ true false false); [apply IH; lia | | discriminate].
    intros l r2 _ _. apply good_matched.
  - apply good_matched.
Qed.

Lemma good_match_annotations : forall ts, good true ts (match_annotation_sequence ts).
Proof. intros ts. apply good_annotation_sequence. lia. Qed.

Lemma good_optional_annotations : forall ts, good false ts (optional_annotations ts).
Proof.
  intros ts. unfold optional_annotations. destruct (peek (is tk_at) ts).
  - apply (good_weaken _ true). apply good_match_annotations.
  - apply good_matched.
Qed.

(** ** Expressions *)

Definition good_below (n : nat) (expr : list lexeme -> result pexpr) : Prop :=
  forall ts, (length ts < n)%nat -> good true ts (expr ts).

(** [step] for a good part, [go] for the rest of a rule. *)
Ltac step :=
  eapply (good_bind _ _ true false); [ | | reflexivity].
Ltac step0 :=
  eapply (good_bind _ _ true false false); [ | | discriminate].
Ltac demanded := apply good_demand.
Ltac shrink := repeat match goal with
  | E : ends true _ _ |- _ => apply ends_length in E
  | E : ends false _ _ |- _ => apply ends_le in E
  end; lia.

Section Expressions.

Variable expr : list lexeme -> result pexpr.
Variable n : nat.
Hypothesis expr_good : good_below n expr.
Variable fuel : nat.

Lemma good_parenthesized : forall ts, (length ts <= n)%nat -> good true ts (match_parenthesized expr ts).
Proof.
  intros ts L. unfold match_parenthesized. step; [demanded|]. intros p r1 _ E1. cbv beta iota.
  step0; [apply expr_good; shrink|]. intros e r2 _ E2. cbv beta iota.
  step0; [demanded|]. intros q r3 _ _. apply good_matched.
Qed.

Lemma good_type : forall ts, (length ts <= n)%nat -> good true ts (match_type expr ts).
Proof.
  intros ts L. unfold match_type.
  destruct (expect (is tk_keyword_void) ts) as [[p ts1]|] eqn:P1; [eapply expect_ends; exact P1|].
  destruct (expect (is tk_keyword_bool) ts) as [[p ts1]|] eqn:P2; [eapply expect_ends; exact P2|].
  destruct (expect (is tk_keyword_int) ts) as [[p ts1]|] eqn:P3; [eapply expect_ends; exact P3|].
  destruct (expect (is tk_keyword_uint) ts) as [[p ts1]|] eqn:P4; [|apply good_fail].
  pose proof (expect_ends _ _ _ _ P4) as E. eapply good_from; [exact E | | reflexivity].
  step0; [apply good_parenthesized; shrink|]. intros e r _ _. apply good_matched.
Qed.

Lemma good_primary : forall ts, (length ts <= n)%nat -> good true ts (match_primary expr ts).
Proof.
  intros ts L. unfold match_primary.
  destruct (expect tk_is_literal ts) as [[p ts1]|] eqn:P1; [eapply expect_ends; exact P1|].
  destruct (expect (is tk_identifier) ts) as [[p ts1]|] eqn:P2; [eapply expect_ends; exact P2|].
  pose proof (good_parenthesized ts L) as G.
  destruct (match_parenthesized expr ts) as [[[e r]|e| |]|]; exact G.
Qed.

Lemma good_call_arguments : forall g b ts,
  (length ts < n)%nat -> (length ts < g)%nat -> good true ts (call_arguments expr g b ts).
Proof.
  induction g as [|g IH]; intros b ts L G; [lia|]. cbn [call_arguments].
  destruct (if b then None else expect (is tk_right_parenthesis) ts) as [[q ts1]|] eqn:Q.
  - destruct b; [discriminate Q|]. eapply expect_ends. exact Q.
  - step; [apply expr_good; exact L|]. intros e r1 _ E1. cbv beta iota.
    step0; [|intros l r3 _ _; apply good_matched].
    destruct (expect (is tk_comma) r1) as [[c r2]|] eqn:C.
    + pose proof (expect_ends _ _ _ _ C) as E2. eapply good_from; [exact E2 | | reflexivity].
      apply IH; shrink.
    + apply IH; shrink.
Qed.

Lemma good_call : forall ts, (length ts <= n)%nat -> (length ts <= fuel)%nat ->
  good true ts (match_call expr fuel ts).
Proof.
  intros ts L F. unfold match_call. step; [demanded|]. intros p r1 _ E1. cbv beta iota.
  step0; [demanded|]. intros q r2 _ E2. cbv beta iota.
  step0; [apply good_call_arguments; shrink|]. intros l r3 _ E3. cbv beta iota.
  eapply (good_bind _ _ false false); [apply good_optional_annotations | | discriminate].
  intros an r4 _ _. apply good_matched.
Qed.

Lemma good_postfix : forall ts, (length ts <= n)%nat -> (length ts <= fuel)%nat ->
  good true ts (match_postfix expr fuel ts).
Proof.
  intros ts L F. unfold match_postfix.
  destruct (peek (is tk_identifier) ts && peek_second (is tk_left_parenthesis) ts).
  - apply good_call; assumption.
  - apply good_primary; assumption.
Qed.

Lemma good_prefix : forall ts, (length ts <= n)%nat -> (length ts <= fuel)%nat ->
  good true ts (match_prefix expr fuel ts).
Proof.
  intros ts L F. unfold match_prefix.
  destruct (expect tk_is_unary_operator ts) as [[t r1]|] eqn:U; [|apply good_postfix; assumption].
  pose proof (expect_ends _ _ _ _ U) as E. eapply good_from; [exact E | | reflexivity].
  step0; [apply good_postfix; shrink|]. intros e r2 _ _. apply good_matched.
Qed.

Lemma good_arithmetic : forall ts, (length ts <= n)%nat -> (length ts <= fuel)%nat ->
  good true ts (match_arithmetic expr fuel ts).
Proof.
  intros ts L F. unfold match_arithmetic. step; [apply good_prefix; assumption|].
  intros a r1 _ E1. cbv beta iota.
  destruct (expect tk_is_arithmetic_operator r1) as [[op r2]|] eqn:OP; [|apply good_matched].
  pose proof (expect_ends _ _ _ _ OP) as E. eapply good_from; [exact E | | discriminate].
  step0; [apply good_prefix; shrink|]. intros e r3 _ _. apply good_matched.
Qed.

Lemma good_binary : forall ts, (length ts <= n)%nat -> (length ts <= fuel)%nat ->
  good true ts (match_binary expr fuel ts).
Proof.
  intros ts L F. unfold match_binary. destruct (commit_to_comparison 0 ts).
  - unfold match_comparison. step; [apply good_arithmetic; assumption|].
    intros a r1 _ E1. cbv beta iota. step0; [demanded|]. intros op r2 _ E2. cbv beta iota.
    step0; [apply good_arithmetic; shrink|]. intros b r3 _ _. apply good_matched.
  - step; [apply good_prefix; assumption|]. intros a r1 _ E1. cbv beta iota.
    destruct (expect tk_is_binary_operator r1) as [[op r2]|] eqn:OP; [|apply good_matched].
    pose proof (expect_ends _ _ _ _ OP) as E. eapply good_from; [exact E | | discriminate].
    step0; [apply good_prefix; shrink|]. intros e r3 _ _. apply good_matched.
Qed.

Lemma good_if : forall g ts, (length ts <= n)%nat -> (length ts <= fuel)%nat -> (length ts < g)%nat ->
  good true ts (match_if expr fuel g ts).
Proof.
  induction g as [|g IH]; intros ts L F G; [lia|]. cbn [match_if].
  step; [apply good_binary; assumption|]. intros a r1 _ E1. cbv beta iota.
  destruct (expect (is tk_keyword_if) r1) as [[t r2]|] eqn:T; [|apply good_matched].
  pose proof (expect_ends _ _ _ _ T) as E. eapply good_from; [exact E | | discriminate].
  step0; [apply good_binary; shrink|]. intros c r3 _ E3. cbv beta iota.
  step0; [demanded|]. intros q r4 _ E4. cbv beta iota.
  step0; [apply IH; shrink|]. intros b r5 _ _. apply good_matched.
Qed.

Lemma good_conversion : forall ts, (length ts <= n)%nat -> (length ts <= fuel)%nat ->
  good true ts (match_conversion expr fuel ts).
Proof.
  intros ts L F. unfold match_conversion. step; [apply good_prefix; assumption|].
  intros e r1 _ E1. cbv beta iota. step0; [demanded|]. intros q r2 _ E2. cbv beta iota.
  step0; [apply good_type; shrink|]. intros t r3 _ _. apply good_matched.
Qed.

End Expressions.

Lemma good_expression : forall fuel ts,
  (length ts < fuel)%nat -> good true ts (expression fuel ts).
Proof.
  induction fuel as [|fuel IH]; intros ts L; [lia|]. cbn [expression].
  assert (B : good_below fuel (expression fuel)) by (intros ts' L'; apply IH; exact L').
  assert (P : good true ts (match_prefix (expression fuel) fuel ts))
    by (eapply good_prefix; [exact B | lia | lia]).
  assert (R : forall b : bool, good true ts
    (if b then match_conversion (expression fuel) fuel ts
     else match_if (expression fuel) fuel (S fuel) ts)).
  { intros []; [eapply good_conversion | eapply good_if]; try exact B; lia. }
  unfold is_conversion.
  destruct (match_prefix (expression fuel) fuel ts) as [[[e r]|e| |]|]; cbn [bind_result].
  - apply R.
  - apply (R false).
  - exact P.
  - exact P.
  - exact P.
Qed.

Lemma good_match_expression : forall ts, good true ts (match_expression ts).
Proof. intros ts. apply good_expression. lia. Qed.

Lemma good_below_match : forall n, good_below n match_expression.
Proof. intros n ts _. apply good_match_expression. Qed.

(** ** Statements *)

Lemma good_match_type : forall ts, good true ts (match_type match_expression ts).
Proof. intros ts. eapply good_type; [apply (good_below_match (length ts)) | lia]. Qed.

Lemma good_match_parenthesized : forall ts, good true ts (match_parenthesized match_expression ts).
Proof. intros ts. eapply good_parenthesized; [apply (good_below_match (length ts)) | lia]. Qed.

Lemma good_optional_type : forall ts, good false ts (optional_type ts).
Proof.
  intros ts. unfold optional_type. destruct (expect (is tk_colon) ts) as [[c r1]|] eqn:C;
    [|apply good_matched].
  eapply good_from; [eapply expect_ends; exact C | | discriminate].
  step0; [apply good_match_type|]. intros t r2 _ _. apply good_matched.
Qed.

Lemma good_initializer : forall ts, good true ts (match_initializer ts).
Proof.
  intros ts. unfold match_initializer. step; [demanded|]. intros q r1 _ _.
  eapply good_weaken. apply good_match_expression.
Qed.

Lemma good_let : forall an ts, good true ts (match_let an ts).
Proof.
  intros an ts. unfold match_let. step; [demanded|]. intros k r1 _ _. cbv beta iota.
  step0; [demanded|]. intros nm r2 _ _. cbv beta iota.
  eapply (good_bind _ _ false false); [apply good_optional_type | | discriminate].
  intros t r3 _ _. cbv beta iota.
  eapply (good_bind _ _ false false); [ | | discriminate].
  - destruct (_ || _); [|apply good_matched]. step0; [apply good_initializer|].
    intros e r4 _ _. apply good_matched.
  - intros i r4 _ _. cbv beta iota. step0; [demanded|]. intros q r5 _ _. apply good_matched.
Qed.

Lemma good_const : forall an ts, good true ts (match_const an ts).
Proof.
  intros an ts. unfold match_const. step; [demanded|]. intros k r1 _ _. cbv beta iota.
  step0; [demanded|]. intros nm r2 _ _. cbv beta iota.
  eapply (good_bind _ _ false false); [apply good_optional_type | | discriminate].
  intros t r3 _ _. cbv beta iota. step0; [apply good_initializer|]. intros e r4 _ _. cbv beta iota.
  step0; [demanded|]. intros q r5 _ _. apply good_matched.
Qed.

Lemma good_assertion : forall ts, good true ts (match_static_assertion ts).
Proof.
  intros ts. unfold match_static_assertion. step; [demanded|]. intros k r1 _ _. cbv beta iota.
  step0; [apply good_match_parenthesized|]. intros e r2 _ _. cbv beta iota.
  step0; [demanded|]. intros q r3 _ _. apply good_matched.
Qed.

Lemma good_assignment : forall an ts, good true ts (match_assignment_statement an ts).
Proof.
  intros an ts. unfold match_assignment_statement. step.
  - unfold match_assignment. step; [demanded|]. intros k r1 _ _. cbv beta iota.
    step0; [demanded|]. intros q r2 _ _. cbv beta iota.
    step0; [apply good_match_expression|]. intros e r3 _ _. apply good_matched.
  - intros a r1 _ _. cbv beta iota. step0; [demanded|]. intros q r2 _ _. apply good_matched.
Qed.

Lemma good_call_statement : forall ts, good true ts (match_function_call_statement ts).
Proof.
  intros ts. unfold match_function_call_statement. step.
  - eapply good_call; [apply (good_below_match (length ts)) | lia | lia].
  - intros c r1 M _. cbv beta iota. apply call_sound in M; [|apply match_expression_sound].
    destruct M as [_ (name & args & a & ->)]. step0; [demanded|]. intros q r2 _ _. apply good_matched.
Qed.

Lemma good_return : forall ts, good true ts (match_return ts).
Proof.
  intros ts. unfold match_return. step; [demanded|]. intros k r1 _ _. cbv beta iota.
  destruct (expect (is tk_semicolon) r1) as [[q r2]|] eqn:Q.
  - cbn. apply (ends_weaken true). eapply expect_ends. exact Q.
  - step0; [apply good_match_expression|]. intros e r2 _ _. cbv beta iota.
    step0; [demanded|]. intros q r3 _ _. apply good_matched.
Qed.

Lemma good_break : forall ts, good true ts (match_break ts).
Proof.
  intros ts. unfold match_break. step; [demanded|]. intros k r1 _ _. cbv beta iota.
  step0; [demanded|]. intros q r2 _ _. apply good_matched.
Qed.

Lemma good_continue : forall ts, good true ts (match_continue ts).
Proof.
  intros ts. unfold match_continue. step; [demanded|]. intros k r1 _ _. cbv beta iota.
  step0; [demanded|]. intros q r2 _ _. apply good_matched.
Qed.

Section Statements.

Variable stmt : list lexeme -> result pstmt.
Variable n : nat.
Hypothesis stmt_good : forall ts, (length ts < n)%nat -> good true ts (stmt ts).

Lemma good_block_statements : forall g ts,
  (length ts < n)%nat -> (length ts < g)%nat -> good true ts (block_statements stmt g ts).
Proof.
  induction g as [|g IH]; intros ts L G; [lia|]. cbn [block_statements].
  destruct (expect (is tk_right_brace) ts) as [[q r]|] eqn:Q; [eapply expect_ends; exact Q|].
  step; [apply stmt_good; exact L|]. intros s r1 _ E. cbv beta iota.
  step0; [apply IH; shrink|]. intros l r2 _ _. apply good_matched.
Qed.

Lemma good_block : forall g ts,
  (length ts <= n)%nat -> (length ts <= g)%nat -> good true ts (match_block stmt g ts).
Proof.
  intros g ts L G. unfold match_block. step; [demanded|]. intros q r _ E. cbv beta iota.
  eapply good_weaken. apply good_block_statements; shrink.
Qed.

Lemma good_if_statement : forall g an ts,
  (length ts <= n)%nat -> (length ts < g)%nat -> good true ts (match_if_statement stmt g an ts).
Proof.
  induction g as [|g IH]; intros an ts L G; [lia|]. cbn [match_if_statement].
  step; [demanded|]. intros k r1 _ E1. cbv beta iota.
  step0; [apply good_match_expression|]. intros c r2 _ E2. cbv beta iota.
  step0; [apply good_block; shrink|]. intros b r3 _ E3. cbv beta iota.
  destruct (expect (is tk_keyword_else) r3) as [[q r4]|] eqn:Q; [|apply good_matched].
  pose proof (expect_ends _ _ _ _ Q) as E4. eapply good_from; [exact E4 | | discriminate].
  step0; [|intros e r5 _ _; apply good_matched].
  destruct (peek (is tk_keyword_if) r4).
  - apply IH; shrink.
  - step; [apply good_block; shrink|]. intros l r5 _ _. apply good_matched.
Qed.

Lemma good_while : forall g an ts,
  (length ts <= n)%nat -> (length ts < g)%nat -> good true ts (match_while stmt g an ts).
Proof.
  intros g an ts L G. unfold match_while. step; [demanded|]. intros k r1 _ E1. cbv beta iota.
  step0; [apply good_match_expression|]. intros c r2 _ E2. cbv beta iota.
  step0; [apply good_block; shrink|]. intros b r3 _ _. apply good_matched.
Qed.

Lemma good_annotated : forall g an ts,
  (length ts <= n)%nat -> (length ts < g)%nat -> good true ts (match_annotated_statement stmt g an ts).
Proof.
  intros g an ts L G. unfold match_annotated_statement.
  destruct (skip_comments ts) as [|[k x] r]; [apply good_fail|].
  destruct k; try apply good_fail.
  all: first [apply good_let | apply good_const | apply good_assignment
    | apply good_if_statement; assumption | apply good_while; assumption].
Qed.

Lemma good_statement_step : forall g ts,
  (length ts <= n)%nat -> (length ts < g)%nat -> good true ts (statement_step stmt g ts).
Proof.
  intros g ts L G. unfold statement_step.
  destruct (skip_comments ts) as [|[k x] r]; [apply good_fail|].
  destruct k; try apply good_fail.
  all: first [apply good_let | apply good_const | apply good_assertion | apply good_break
    | apply good_continue | apply good_return
    | apply good_if_statement; assumption | apply good_while; assumption | idtac].
  - unfold match_assignment_or_call. destruct (peek (is tk_identifier) ts); [|apply good_fail].
    destruct (peek_second (is tk_assign) ts); [apply good_assignment | apply good_call_statement].
  - step; [apply good_block; lia|]. intros l r1 _ _. apply good_matched.
  - step; [apply good_match_annotations|]. intros an r1 _ E. cbv beta iota.
    eapply good_weaken. apply good_annotated; shrink.
Qed.

End Statements.

Lemma good_statement : forall fuel ts, (length ts < fuel)%nat -> good true ts (statement fuel ts).
Proof.
  induction fuel as [|fuel IH]; intros ts L; [lia|]. cbn [statement].
  eapply good_statement_step; [exact IH | lia | lia].
Qed.

Lemma good_match_statement : forall ts, good true ts (match_statement ts).
Proof. intros ts. apply good_statement. lia. Qed.

(** ** Declarations *)

Lemma good_parameter : forall ts, good true ts (match_parameter ts).
Proof.
  intros ts. unfold match_parameter. step; [demanded|]. intros k r1 _ _. cbv beta iota.
  step0; [demanded|]. intros c r2 _ _. cbv beta iota.
  step0; [apply good_match_type|]. intros t r3 _ _. apply good_matched.
Qed.

Lemma good_parameters : forall fuel ts,
  (length ts < fuel)%nat -> good true ts (parameter_sequence fuel ts).
Proof.
  induction fuel as [|fuel IH]; intros ts L; [lia|]. cbn [parameter_sequence].
  step; [apply good_parameter|]. intros p r1 _ E1. cbv beta iota.
  destruct (expect (is tk_comma) r1) as [[c r2]|] eqn:C; [|apply good_matched].
  pose proof (expect_ends _ _ _ _ C) as E2. eapply good_from; [exact E2 | | discriminate].
  step0; [apply IH; shrink|]. intros l r3 _ _. apply good_matched.
Qed.

Lemma good_function : forall an ts, good true ts (match_function an ts).
Proof.
  intros an ts. unfold match_function. step; [demanded|]. intros k r1 _ _. cbv beta iota.
  step0; [demanded|]. intros nm r2 _ _. cbv beta iota.
  step0; [demanded|]. intros p r3 _ _. cbv beta iota.
  eapply (good_bind _ _ false false); [ | | discriminate].
  - destruct (peek (is tk_right_parenthesis) r3); [apply good_matched|].
    apply (good_weaken _ true). apply good_parameters. lia.
  - intros ps r4 _ _. cbv beta iota. step0; [demanded|]. intros q r5 _ _. cbv beta iota.
    step0; [demanded|]. intros a r6 _ _. cbv beta iota.
    step0; [apply good_match_type|]. intros t r7 _ _. cbv beta iota.
    eapply (good_bind _ _ false false); [ | | discriminate].
    + unfold optional_requires. destruct (expect (is tk_keyword_requires) r7) as [[c r8]|] eqn:C;
        [|apply good_matched].
      eapply good_from; [eapply expect_ends; exact C | | discriminate].
      step0; [apply good_match_expression|]. intros e r9 _ _. apply good_matched.
    + intros rq r8 _ _. cbv beta iota. step0.
      * eapply (good_block match_statement (length r8)); [|lia|lia].
        intros ts' _. apply good_match_statement.
      * intros b r9 _ _. apply good_matched.
Qed.

Lemma good_declaration : forall ts, good true ts (match_program_declaration ts).
Proof.
  assert (C : forall an ts, good true ts (const_declaration an ts)).
  { intros an ts. unfold const_declaration. step; [apply good_const|].
    intros s r _ _. apply good_matched. }
  assert (F : forall an ts, good true ts (function_declaration an ts)).
  { intros an ts. unfold function_declaration. step; [apply good_function|].
    intros s r _ _. apply good_matched. }
  intros ts. unfold match_program_declaration.
  destruct (skip_comments ts) as [|[k x] r]; [apply good_fail|].
  destruct k; try apply good_fail; try apply C; try apply F.
  - step; [apply good_match_annotations|]. intros an r1 _ _. cbv beta iota.
    destruct (peek (is tk_keyword_const) r1); [eapply good_weaken; apply C|].
    destruct (peek (is tk_keyword_function) r1); [eapply good_weaken; apply F | apply good_fail].
  - step; [apply good_assertion|]. intros s r1 _ _. apply good_matched.
Qed.

Lemma good_declarations : forall fuel ts,
  (length ts < fuel)%nat -> good true ts (program_declarations fuel ts).
Proof.
  induction fuel as [|fuel IH]; intros ts L; [lia|]. cbn [program_declarations].
  step; [apply good_declaration|]. intros x r1 _ E. cbv beta iota.
  destruct (skip_comments r1); [apply good_matched|].
  step0; [apply IH; shrink|]. intros l' r2 _ _. apply good_matched.
Qed.

Lemma parse_good : forall ts,
  (exists p, parse ts = Some (Ok p)) \/
  (exists e before, parse ts = Some (Err e) /\ ts = before ++ pe_rest e) \/
  (parse ts = Some Abort /\ bad ts).
Proof.
  intros ts. unfold parse. pose proof (good_declarations (S (length ts)) ts) as G.
  destruct (program_declarations (S (length ts)) ts) as [[[p r]|e| |]|]; cbn [bind_result].
  - left. exists p. reflexivity.
  - right. left. destruct G as (b & E & _); [lia|]. exists e, b. split; [reflexivity | exact E].
  - right. right. split; [reflexivity | apply G; lia].
  - exfalso. apply G. lia.
  - exfalso. apply G. lia.
Qed.
