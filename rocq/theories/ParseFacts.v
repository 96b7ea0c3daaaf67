(** What the parser accepts is a sentence of the grammar: soundness of src/bms/parsing/parse.cpp. *)
From Coq Require Import ZArith Ascii String List Bool Lia.
From Verif Require Import Prelude Text Tables Annotations Ast Parse GrammarSpec.
Import ListNotations.
Open Scope string_scope.
Open Scope list_scope.
Open Scope Z_scope.

(** ** Results *)

Lemma bind_result_ok : forall E A B (m : option (outcome E A)) (k : A -> option (outcome E B)) b,
  bind_result m k = Some (Ok b) -> exists a, m = Some (Ok a) /\ k a = Some (Ok b).
Proof. intros E A B [[a|e| |]|] k b H; try discriminate H. exists a. split; [reflexivity|exact H]. Qed.

Ltac rinv H a E :=
  let H' := fresh in
  apply bind_result_ok in H; destruct H as (a & E & H').

(** Takes [let! (x, ts) := m in k = Some (Ok r)] apart. *)
Ltac rstep H x ts E :=
  let p := fresh "p" in let H' := fresh in
  apply bind_result_ok in H; destruct H as (p & E & H'); destruct p as [x ts];
  cbv beta iota in H'; clear H; rename H' into H.

Ltac rdone H := unfold matched in H; injection H as <- <-.

(** ** Tokens *)

Lemma comment_iff : forall k, tk_is_comment k = true <-> In k comments.
Proof.
  intros k. split.
  - destruct k; intros H; try discriminate H; cbn; auto.
  - intros [<- | [<- | []]]; reflexivity.
Qed.

Lemma is_iff : forall t k, is t k = true <-> k = t.
Proof.
  intros t k. unfold is, token_type_eqb. split.
  - destruct t, k; intros H; try discriminate H; reflexivity.
  - intros ->. apply Z.eqb_refl.
Qed.

Lemma literal_iff : forall k, tk_is_literal k = true <-> In k literals.
Proof.
  intros k. split.
  - destruct k; intros H; try discriminate H; cbn; tauto.
  - cbn. intros H. decompose [or] H; subst; try reflexivity; contradiction.
Qed.

Lemma unary_iff : forall k, tk_is_unary_operator k = true <-> In k unary_operators.
Proof.
  intros k. split.
  - destruct k; intros H; try discriminate H; cbn; tauto.
  - cbn. intros H. decompose [or] H; subst; try reflexivity; contradiction.
Qed.

Lemma arithmetic_iff : forall k, tk_is_arithmetic_operator k = true <-> In k arithmetic_operators.
Proof.
  intros k. split.
  - destruct k; intros H; try discriminate H; cbn; tauto.
  - cbn. intros H. decompose [or] H; subst; try reflexivity; contradiction.
Qed.

Lemma comparison_iff : forall k, tk_is_comparison_operator k = true <-> In k comparison_operators.
Proof.
  intros k. split.
  - destruct k; intros H; try discriminate H; cbn; tauto.
  - cbn. intros H. decompose [or] H; subst; try reflexivity; contradiction.
Qed.

Lemma binary_iff : forall k, tk_is_binary_operator k = true <-> In k binary_operators.
Proof.
  intros k. split.
  - destruct k; intros H; try discriminate H; cbn; tauto.
  - cbn. intros H. decompose [or] H; subst; try reflexivity; contradiction.
Qed.

Lemma token_then_skip : forall ts k x rest,
  token_then ts k x rest <-> skip_comments ts = (k, x) :: rest /\ tk_is_comment k = false.
Proof.
  intros ts k x rest. split.
  - induction 1 as [k x ts N | c x ts k y rest C T IH].
    + cbn. destruct (tk_is_comment k) eqn:E; [|split; reflexivity].
      apply comment_iff in E. contradiction.
    + cbn. apply comment_iff in C. rewrite C. exact IH.
  - intros [E C]. induction ts as [|[k' x'] ts IH]; [discriminate E|]. cbn in E.
    destruct (tk_is_comment k') eqn:C'.
    + apply tt_comment; [apply comment_iff; exact C'|]. apply IH. exact E.
    + injection E as -> -> ->. apply tt_here. intros B. apply comment_iff in B. congruence.
Qed.

Lemma skip_comments_head : forall ts k x rest,
  skip_comments ts = (k, x) :: rest -> tk_is_comment k = false.
Proof.
  induction ts as [|[k' x'] ts IH]; intros k x rest H; [discriminate H|]. cbn in H.
  destruct (tk_is_comment k') eqn:C; [eapply IH; exact H|]. injection H as -> -> ->. exact C.
Qed.

Lemma expect_some : forall p ts t rest,
  expect p ts = Some (t, rest) -> token_then ts (fst t) (snd t) rest /\ p (fst t) = true.
Proof.
  intros p ts [k x] rest H. unfold expect in H.
  destruct (skip_comments ts) as [|[k' x'] ts'] eqn:E; [discriminate H|].
  cbn [fst] in H. destruct (p k') eqn:P; [|discriminate H]. injection H as -> -> ->.
  split; [|exact P]. apply token_then_skip. split; [exact E|]. eapply skip_comments_head. exact E.
Qed.

Lemma expect_is : forall t ts l rest,
  expect (is t) ts = Some (l, rest) -> token_then ts t (snd l) rest.
Proof.
  intros t ts l rest H. apply expect_some in H. destruct H as [H P]. apply is_iff in P.
  rewrite <- P. exact H.
Qed.

Lemma expect_eats : forall t ts l rest, expect (is t) ts = Some (l, rest) -> eats t ts rest.
Proof. intros t ts l rest H. exists (snd l). apply expect_is. exact H. Qed.

Lemma demand_some : forall p r ts t rest,
  demand p r ts = Some (Ok (t, rest)) -> token_then ts (fst t) (snd t) rest /\ p (fst t) = true.
Proof.
  intros p r ts t rest H. unfold demand in H. destruct (expect p ts) as [[l ts']|] eqn:E.
  - rdone H. apply expect_some. exact E.
  - discriminate H.
Qed.

Lemma demand_is : forall t r ts l rest,
  demand (is t) r ts = Some (Ok (l, rest)) -> token_then ts t (snd l) rest.
Proof.
  intros t r ts l rest H. apply demand_some in H. destruct H as [H P]. apply is_iff in P.
  rewrite <- P. exact H.
Qed.

Lemma demand_eats : forall t r ts l rest,
  demand (is t) r ts = Some (Ok (l, rest)) -> eats t ts rest.
Proof. intros t r ts l rest H. exists (snd l). eapply demand_is. exact H. Qed.

Lemma expect_token : forall p ts k x rest,
  token_then ts k x rest -> expect p ts = if p k then Some ((k, x), rest) else None.
Proof.
  intros p ts k x rest H. apply token_then_skip in H. destruct H as [H _]. unfold expect.
  rewrite H. reflexivity.
Qed.

(** ** Annotations *)

Lemma annotation_argument_sound : forall ts a rest,
  match_annotation_argument ts = Some (Ok (a, rest)) -> annotation_arg ts a rest.
Proof.
  intros ts a rest H. unfold match_annotation_argument in H. rstep H key ts1 K. rstep H v ts2 V.
  apply demand_some in V. destruct V as [V L]. apply literal_iff in L.
  assert (A : exists w, a = AA key w (fst v) /\ argument_text (fst v) (snd v) w /\ rest = ts2).
  { unfold argument_text. unfold is in H. destruct (token_type_eqb (fst v) tk_string_literal).
    - destruct (2 <=? length (snd v))%nat eqn:N; [|discriminate H]. rdone H.
      eexists. split; [reflexivity|]. split; [|reflexivity].
      apply Nat.leb_le in N. destruct (snd v) as [|c w]; [cbn in N; lia|].
      destruct w as [|c' w'] using rev_ind; [cbn in N; lia|]. exists c, c'. f_equal.
      cbn [length skipn]. rewrite app_length. cbn [length].
      replace (_ - _)%nat with (length w') by lia.
      rewrite firstn_app, firstn_all, Nat.sub_diag. cbn. rewrite app_nil_r. reflexivity.
    - rdone H. eexists. split; [reflexivity|]. split; reflexivity. }
  destruct A as (w & -> & W & ->).
  destruct (expect (is tk_identifier) ts) as [[k t]|] eqn:E.
  - rstep K q ts3 Q. rdone K. eapply aa_named.
    + eapply expect_is. exact E.
    + eapply demand_eats. exact Q.
    + exact V.
    + exact L.
    + exact W.
  - rdone K. eapply aa_positional; eassumption.
Qed.

Lemma annotation_arguments_sound : forall fuel ts l rest,
  annotation_arguments fuel ts = Some (Ok (l, rest)) -> annotation_args ts l rest.
Proof.
  induction fuel as [|fuel IH]; intros ts l rest H; [discriminate H|]. cbn [annotation_arguments] in H.
  rstep H a ts1 A. apply annotation_argument_sound in A.
  destruct (expect (is tk_comma) ts1) as [[c ts2]|] eqn:C.
  - rstep H l' ts3 L. rdone H. eapply aas_more; [exact A | eapply expect_eats; exact C | apply IH; exact L].
  - rdone H. apply aas_one. exact A.
Qed.

Lemma annotation_sound : forall ts a rest,
  match_annotation ts = Some (Ok (a, rest)) -> annotation_phrase ts a rest.
Proof.
  intros ts a rest H. unfold match_annotation in H. rstep H t1 ts1 T. rstep H nm ts2 I2.
  destruct (annotation_argument_list ts2) as [[[args ts3]|e| |]|] eqn:E; try discriminate H. rdone H.
  apply demand_eats in T. apply demand_is in I2. unfold annotation_argument_list in E.
  destruct (expect (is tk_left_parenthesis) ts2) as [[p ts4]|] eqn:P.
  - apply expect_eats in P. destruct (expect (is tk_right_parenthesis) ts4) as [[q ts5]|] eqn:Q.
    + rdone E. apply expect_eats in Q. eapply annotation_intro; [exact T | exact I2 |].
      eapply al_empty; eassumption.
    + rstep E l ts5 L. rstep E q ts6 R. rdone E. apply demand_eats in R.
      apply annotation_arguments_sound in L.
      eapply annotation_intro; [exact T | exact I2 |]. eapply al_args; eassumption.
  - rdone E. eapply annotation_bare; eassumption.
Qed.

Lemma annotation_sequence_sound : forall fuel ts l rest,
  annotation_sequence fuel ts = Some (Ok (l, rest)) -> annotations_phrase ts l rest.
Proof.
  induction fuel as [|fuel IH]; intros ts l rest H; [discriminate H|]. cbn [annotation_sequence] in H.
  rstep H a ts1 A. apply annotation_sound in A. destruct (peek (is tk_at) ts1).
  - rstep H l' ts2 L. rdone H. eapply as_more; [exact A | apply IH; exact L].
  - rdone H. eapply as_more; [exact A | apply as_none].
Qed.

Lemma match_annotation_sequence_sound : forall ts l rest,
  match_annotation_sequence ts = Some (Ok (l, rest)) -> annotations_phrase ts l rest.
Proof. intros ts l rest H. eapply annotation_sequence_sound. exact H. Qed.

Lemma optional_annotations_sound : forall ts l rest,
  optional_annotations ts = Some (Ok (l, rest)) -> annotations_phrase ts l rest.
Proof.
  intros ts l rest H. unfold optional_annotations in H. destruct (peek (is tk_at) ts).
  - apply match_annotation_sequence_sound. exact H.
  - rdone H. apply as_none.
Qed.

(** ** The look-ahead *)

Lemma depth_app : forall a b, depth (a ++ b) = depth a + depth b.
Proof.
  induction a as [|[k x] a IH]; intros b; [reflexivity|].
  cbn [app depth]. destruct k; rewrite ?IH; lia.
Qed.

(** [comparison_ahead] from some nesting depth. *)
Definition ahead_from (level : Z) (ts : list lexeme) : Prop :=
  exists before op x after,
    ts = before ++ (op, x) :: after /\
    In op comparison_operators /\
    level + depth before = 0 /\
    (forall k y, In (k, y) before -> ~ In k [tk_left_brace; tk_right_brace; tk_semicolon]) /\
    (forall p y q, before = p ++ (tk_keyword_if, y) :: q -> level + depth p <> 0).

Lemma ahead_cons : forall level k x ts,
  ~ In k [tk_left_brace; tk_right_brace; tk_semicolon] ->
  (k = tk_keyword_if -> level <> 0) ->
  (In k comparison_operators -> level <> 0) ->
  (ahead_from level ((k, x) :: ts) <-> ahead_from (level + depth [(k, x)]) ts).
Proof.
  intros level k x ts S1 I1 C1. split.
  - intros (before & op & y & after & E & O & D & S2 & I2). destruct before as [|[k' x'] before].
    + injection E as -> -> ->. exfalso. apply C1; [exact O|]. cbn in D. lia.
    + injection E as -> -> ->. exists before, op, y, after. split; [reflexivity|]. split; [exact O|].
      split; [|split].
      * change ((k', x') :: before) with ([(k', x')] ++ before) in D. rewrite depth_app in D. lia.
      * intros k y' H. apply (S2 k y'). now right.
      * intros p y' q ->. specialize (I2 ((k', x') :: p) y' q eq_refl).
        change ((k', x') :: p) with ([(k', x')] ++ p) in I2. rewrite depth_app in I2. lia.
  - intros (before & op & y & after & E & O & D & S2 & I2).
    exists ((k, x) :: before), op, y, after. split; [rewrite E; reflexivity|]. split; [exact O|].
    split; [|split].
    + change ((k, x) :: before) with ([(k, x)] ++ before). rewrite depth_app. lia.
    + intros k' y' [H|H]; [injection H as <- <-; exact S1 | apply (S2 k' y' H)].
    + intros p y' q H. destruct p as [|[k' x'] p].
      * injection H as -> -> ->. cbn. specialize (I1 eq_refl). lia.
      * injection H as -> -> ->. change ((k', x') :: p) with ([(k', x')] ++ p). rewrite depth_app.
        specialize (I2 p y' q eq_refl). lia.
Qed.

Lemma ahead_stop : forall level k x ts,
  In k [tk_left_brace; tk_right_brace; tk_semicolon] -> ~ ahead_from level ((k, x) :: ts).
Proof.
  intros level k x ts S1 (before & op & y & after & E & O & D & S2 & I2).
  destruct before as [|[k' x'] before].
  - injection E as -> -> ->. cbn in S1, O. decompose [or] S1; subst; try contradiction;
      decompose [or] O; try discriminate; contradiction.
  - injection E as -> -> ->. apply (S2 k' x'); [left; reflexivity | exact S1].
Qed.

Lemma ahead_if : forall x ts, ~ ahead_from 0 ((tk_keyword_if, x) :: ts).
Proof.
  intros x ts (before & op & y & after & E & O & D & S2 & I2).
  destruct before as [|[k' x'] before].
  - injection E as <- <- <-. cbn in O. decompose [or] O; try discriminate; contradiction.
  - injection E as <- <- ->. apply (I2 [] x before); reflexivity.
Qed.

Lemma token_type_dec : forall a b : token_type, {a = b} + {a <> b}.
Proof. decide equality. Defined.

Lemma commit_iff : forall ts level, commit_to_comparison level ts = true <-> ahead_from level ts.
Proof.
  induction ts as [|[k x] ts IH]; intros level.
  - split; [intros H; discriminate H|]. intros (b & op & y & a & E & _). destruct b; discriminate E.
  - destruct (in_dec token_type_dec k [tk_left_brace; tk_right_brace; tk_semicolon])
      as [S1|S1].
    + split; [|intros H; exfalso; eapply ahead_stop; eassumption].
      cbn in S1. decompose [or] S1; subst; try contradiction; intros H; discriminate H.
    + destruct (Z.eq_dec level 0) as [->|L].
      * destruct (is tk_keyword_if k) eqn:KI.
        { apply is_iff in KI. subst k. split; [intros H; discriminate H|].
          intros H. exfalso. eapply ahead_if. exact H. }
        destruct (tk_is_comparison_operator k) eqn:KC.
        { split; [|intros _; destruct k; try discriminate KC; reflexivity]. intros _.
          exists [], k, x, ts. split; [reflexivity|]. split; [apply comparison_iff; exact KC|].
          split; [reflexivity|]. split; [intros ? ? []|]. intros [|? ?] ? ? H; discriminate H. }
        rewrite ahead_cons; [ | exact S1
          | intros ->; discriminate KI
          | intros H; apply comparison_iff in H; congruence ].
        rewrite <- IH. cbn [depth].
        destruct k; cbn in KI, KC; try discriminate; cbn in S1; try (exfalso; tauto); reflexivity.
      * rewrite ahead_cons; [ | exact S1 | intros _; exact L | intros _; exact L ].
        rewrite <- IH. cbn [depth commit_to_comparison].
        assert (Z : negb (level =? 0) = true) by (destruct (Z.eqb_spec level 0); [contradiction|reflexivity]).
        rewrite Z. destruct k; cbv iota; rewrite ?Z.add_0_r; try reflexivity; cbn in S1; exfalso; tauto.
Qed.

Lemma commit_ahead : forall ts, commit_to_comparison 0 ts = true <-> comparison_ahead ts.
Proof.
  intros ts. rewrite commit_iff. unfold ahead_from, comparison_ahead. reflexivity.
Qed.

Lemma foreseen_iff : forall ts b, foreseen ts b <-> commit_to_comparison 0 ts = b.
Proof.
  intros ts b. unfold foreseen. rewrite <- commit_ahead.
  destruct (commit_to_comparison 0 ts), b; intuition congruence.
Qed.

(** ** Expressions *)

Section Expressions.

Variable expr : list lexeme -> result pexpr.
Hypothesis expr_sound : forall ts e rest,
  expr ts = Some (Ok (e, rest)) -> derive upper n_expression ts e rest.
Variable n : nat.

Lemma parenthesized_sound : forall ts e rest,
  match_parenthesized expr ts = Some (Ok (e, rest)) -> derive upper n_parenthesized ts e rest.
Proof.
  intros ts e rest H. unfold match_parenthesized in H. rstep H p ts1 P. rstep H e' ts2 X.
  rstep H q ts3 Q. rdone H. eapply d_parenthesized.
  - eapply demand_eats. exact P.
  - apply expr_sound. exact X.
  - eapply demand_eats. exact Q.
Qed.

Lemma type_sound : forall ts t rest,
  match_type expr ts = Some (Ok (t, rest)) -> derive_type upper ts t rest.
Proof.
  intros ts t rest H. unfold match_type in H.
  destruct (expect (is tk_keyword_void) ts) as [[p ts1]|] eqn:P1.
  { rdone H. apply d_void. eapply expect_eats. exact P1. }
  destruct (expect (is tk_keyword_bool) ts) as [[p ts1]|] eqn:P2.
  { rdone H. apply d_bool. eapply expect_eats. exact P2. }
  destruct (expect (is tk_keyword_int) ts) as [[p ts1]|] eqn:P3.
  { rdone H. apply d_int. eapply expect_eats. exact P3. }
  destruct (expect (is tk_keyword_uint) ts) as [[p ts1]|] eqn:P4; [|discriminate H].
  rstep H e ts2 X. rdone H. eapply d_uint; [eapply expect_eats; exact P4|].
  apply parenthesized_sound. exact X.
Qed.

Lemma primary_sound : forall ts e rest,
  match_primary expr ts = Some (Ok (e, rest)) -> derive upper n_primary ts e rest.
Proof.
  intros ts e rest H. unfold match_primary in H.
  destruct (expect tk_is_literal ts) as [[t ts1]|] eqn:L.
  { rdone H. apply expect_some in L. destruct L as [L K]. apply d_literal; [exact L|].
    apply literal_iff in K. unfold literals in K. rewrite app_assoc in K. apply in_app_or in K.
    destruct K as [K|[K|[]]]; [left; exact K | right; split; [reflexivity | symmetry; exact K]]. }
  destruct (expect (is tk_identifier) ts) as [[t ts1]|] eqn:I1.
  { rdone H. apply d_identifier. apply expect_is. exact I1. }
  apply d_is_parenthesized. apply parenthesized_sound.
  destruct (match_parenthesized expr ts) as [[[e' r']|err| |]|]; try discriminate H; exact H.
Qed.

Lemma call_arguments_sound : forall fuel b ts l rest,
  call_arguments expr fuel b ts = Some (Ok (l, rest)) ->
  (l = [] /\ b = false /\ eats tk_right_parenthesis ts rest) \/
  (exists r, derive_sequence upper ts l r /\ eats tk_right_parenthesis r rest).
Proof.
  induction fuel as [|fuel IH]; intros b ts l rest H; [discriminate H|]. cbn [call_arguments] in H.
  destruct (if b then None else expect (is tk_right_parenthesis) ts) as [[q ts1]|] eqn:Q.
  - rdone H. left. destruct b; [discriminate Q|]. split; [reflexivity|]. split; [reflexivity|].
    eapply expect_eats. exact Q.
  - clear Q. rstep H e ts1 X. rstep H l' ts3 L. rdone H. apply expr_sound in X. right.
    destruct (expect (is tk_comma) ts1) as [[c ts2]|] eqn:C.
    + apply expect_eats in C. apply IH in L. destruct L as [(_ & B & _)|(r & D & R)]; [discriminate B|].
      exists r. split; [|exact R]. eapply d_more; eassumption.
    + apply IH in L. destruct L as [(-> & _ & R)|(r & D & R)].
      * exists ts1. split; [apply d_one; exact X | exact R].
      * exists r. split; [|exact R]. eapply d_more_without_comma; [reflexivity | exact X | exact D].
Qed.

Lemma call_sound : forall ts e rest,
  match_call expr n ts = Some (Ok (e, rest)) ->
  derive upper n_call ts e rest /\ exists name args a, e = PCall name args a false.
Proof.
  intros ts e rest H. unfold match_call in H. rstep H nm ts1 I1. rstep H p ts2 P. rstep H args ts3 A.
  rstep H an ts4 NA. rdone H. split; [|eexists; eexists; eexists; reflexivity].
  apply demand_is in I1. apply demand_eats in P.
  apply optional_annotations_sound in NA. apply call_arguments_sound in A.
  destruct A as [(-> & _ & Q)|(r & D & Q)].
  - eapply d_call_none; eassumption.
  - eapply d_call; eassumption.
Qed.

Lemma postfix_sound : forall ts e rest,
  match_postfix expr n ts = Some (Ok (e, rest)) -> derive upper n_postfix ts e rest.
Proof.
  intros ts e rest H. unfold match_postfix in H.
  destruct (peek (is tk_identifier) ts && peek_second (is tk_left_parenthesis) ts).
  - apply d_is_call. apply call_sound. exact H.
  - apply d_is_primary. apply primary_sound. exact H.
Qed.

Lemma prefix_sound : forall ts e rest,
  match_prefix expr n ts = Some (Ok (e, rest)) -> derive upper n_prefix ts e rest.
Proof.
  intros ts e rest H. unfold match_prefix in H.
  destruct (expect tk_is_unary_operator ts) as [[t ts1]|] eqn:U.
  - rstep H e' ts2 X. rdone H. apply expect_some in U. destruct U as [U K]. apply unary_iff in K.
    eapply d_unary; [exact U | exact K | apply postfix_sound; exact X].
  - apply d_postfix. apply postfix_sound. exact H.
Qed.

Lemma arithmetic_sound : forall ts e rest,
  match_arithmetic expr n ts = Some (Ok (e, rest)) -> derive upper n_arithmetic ts e rest.
Proof.
  intros ts e rest H. unfold match_arithmetic in H. rstep H a ts1 A. apply prefix_sound in A.
  destruct (expect tk_is_arithmetic_operator ts1) as [[op ts2]|] eqn:O.
  - rstep H b ts3 B. rdone H. apply expect_some in O. destruct O as [O K]. apply arithmetic_iff in K.
    eapply d_arithmetic; [exact A | exact O | exact K | apply prefix_sound; exact B].
  - rdone H. apply d_term. exact A.
Qed.

Lemma binary_sound : forall ts e rest,
  match_binary expr n ts = Some (Ok (e, rest)) -> derive upper n_binary ts e rest.
Proof.
  intros ts e rest H. unfold match_binary in H. destruct (commit_to_comparison 0 ts) eqn:C.
  - unfold match_comparison in H. rstep H a ts1 A. rstep H op ts2 OP. rstep H b ts3 B. rdone H.
    apply demand_some in OP. destruct OP as [O K]. apply comparison_iff in K.
    eapply d_comparison; [apply foreseen_iff; exact C | apply arithmetic_sound; exact A | exact O
      | exact K | apply arithmetic_sound; exact B].
  - rstep H a ts1 A. apply prefix_sound in A.
    destruct (expect tk_is_binary_operator ts1) as [[op ts2]|] eqn:O.
    + rstep H b ts3 B. rdone H. apply expect_some in O. destruct O as [O K]. apply binary_iff in K.
      eapply d_operation; [apply foreseen_iff; exact C | exact A | exact O | exact K
        | apply prefix_sound; exact B].
    + rdone H. apply d_operand; [apply foreseen_iff; exact C | exact A].
Qed.

Lemma if_sound : forall fuel ts e rest,
  match_if expr n fuel ts = Some (Ok (e, rest)) -> derive upper n_if ts e rest.
Proof.
  induction fuel as [|fuel IH]; intros ts e rest H; [discriminate H|]. cbn [match_if] in H.
  rstep H a ts1 A. apply binary_sound in A.
  destruct (expect (is tk_keyword_if) ts1) as [[t ts2]|] eqn:T.
  - rstep H c ts3 C. rstep H q ts4 Q. rstep H b ts5 B. rdone H.
    eapply d_if; [exact A | eapply expect_eats; exact T | apply binary_sound; exact C
      | eapply demand_eats; exact Q | apply IH; exact B].
  - rdone H. apply d_binary. exact A.
Qed.

Lemma conversion_sound : forall ts e rest,
  match_conversion expr n ts = Some (Ok (e, rest)) -> derive upper n_expression ts e rest.
Proof.
  intros ts e rest H. unfold match_conversion in H. rstep H a ts1 A. rstep H q ts2 Q. rstep H t ts3 T.
  rdone H. eapply d_conversion; [apply prefix_sound; exact A | eapply demand_eats; exact Q
    | apply type_sound; exact T].
Qed.

End Expressions.

Lemma expression_sound : forall fuel ts e rest,
  expression fuel ts = Some (Ok (e, rest)) -> derive upper n_expression ts e rest.
Proof.
  induction fuel as [|fuel IH]; intros ts e rest H; [discriminate H|]. cbn [expression] in H.
  rinv H b B. destruct b.
  - eapply conversion_sound; eassumption.
  - apply d_expression. eapply if_sound; eassumption.
Qed.

Lemma match_expression_sound : forall ts e rest,
  match_expression ts = Some (Ok (e, rest)) -> derive upper n_expression ts e rest.
Proof. intros ts e rest H. eapply expression_sound. exact H. Qed.

(** ** Statements *)

Lemma optional_type_sound : forall ts t rest,
  optional_type ts = Some (Ok (t, rest)) -> type_phrase upper ts t rest.
Proof.
  intros ts t rest H. unfold optional_type in H.
  destruct (expect (is tk_colon) ts) as [[c ts1]|] eqn:C.
  - rstep H t' ts2 T. rdone H. eapply tp_some; [eapply expect_eats; exact C|].
    eapply type_sound; [|exact T]. apply match_expression_sound.
  - rdone H. apply tp_none.
Qed.

Lemma initializer_sound : forall ts e rest,
  match_initializer ts = Some (Ok (e, rest)) -> initializer_phrase upper ts e rest.
Proof.
  intros ts e rest H. unfold match_initializer in H. rstep H c ts1 C. exists ts1.
  split; [eapply demand_eats; exact C | apply match_expression_sound; exact H].
Qed.

Lemma let_sound : forall an ts s rest,
  match_let an ts = Some (Ok (s, rest)) -> let_phrase upper an ts s rest.
Proof.
  intros an ts s rest H. unfold match_let in H. rstep H k ts1 K. rstep H nm ts2 I2. rstep H t ts3 T.
  rstep H i ts4 J. rstep H c ts5 C. rdone H.
  apply demand_eats in K. apply demand_is in I2. apply optional_type_sound in T.
  apply demand_eats in C.
  destruct (_ || _) eqn:B in J.
  - rstep J e ts6 X. rdone J. apply initializer_sound in X. eapply let_initialized; eassumption.
  - rdone J. destruct t as [t|]; [|discriminate B]. inversion T; subst.
    eapply let_uninitialized; eassumption.
Qed.

Lemma const_sound : forall an ts s rest,
  match_const an ts = Some (Ok (s, rest)) -> const_phrase upper an ts s rest.
Proof.
  intros an ts s rest H. unfold match_const in H. rstep H k ts1 K. rstep H nm ts2 I2. rstep H t ts3 T.
  rstep H i ts4 J. rstep H c ts5 C. rdone H.
  apply demand_eats in K. apply demand_is in I2. apply optional_type_sound in T.
  apply demand_eats in C. apply initializer_sound in J. econstructor; eassumption.
Qed.

Lemma assertion_sound : forall ts s rest,
  match_static_assertion ts = Some (Ok (s, rest)) -> assertion_phrase upper ts s rest.
Proof.
  intros ts s rest H. unfold match_static_assertion in H. rstep H k ts1 K. rstep H e ts2 X.
  rstep H c ts3 C. rdone H. apply demand_eats in K. apply demand_eats in C.
  econstructor; [exact K | | exact C].
  eapply parenthesized_sound; [|exact X]. apply match_expression_sound.
Qed.

Lemma assignment_sound : forall an ts s rest,
  match_assignment_statement an ts = Some (Ok (s, rest)) -> assignment_phrase upper an ts s rest.
Proof.
  intros an ts s rest H. unfold match_assignment_statement, match_assignment in H. rstep H a ts1 A.
  rstep H c ts2 C. rdone H. rstep A nm ts3 I3. rstep A q ts4 Q. rstep A e ts5 X. rdone A.
  apply demand_is in I3. apply demand_eats in Q. apply demand_eats in C.
  apply match_expression_sound in X. econstructor; eassumption.
Qed.

Lemma call_statement_sound : forall ts s rest,
  match_function_call_statement ts = Some (Ok (s, rest)) -> statement_phrase upper ts s rest.
Proof.
  intros ts s rest H. unfold match_function_call_statement in H. rstep H c ts1 C. rstep H q ts2 Q.
  apply demand_eats in Q. apply call_sound in C; [|apply match_expression_sound].
  destruct C as [C (name & args & a & ->)]. cbn in H. rdone H. eapply st_call; eassumption.
Qed.

Lemma head_statement : forall ts l rest k, expect (is k) ts = Some (l, rest) -> eats k ts rest.
Proof. intros. eapply expect_eats. eassumption. Qed.

Section Statements.

Variable stmt : list lexeme -> result pstmt.
Hypothesis stmt_sound : forall ts s rest,
  stmt ts = Some (Ok (s, rest)) -> statement_phrase upper ts s rest.

Lemma block_statements_sound : forall fuel ts l rest,
  block_statements stmt fuel ts = Some (Ok (l, rest)) ->
  exists r, statements_phrase upper ts l r /\ eats tk_right_brace r rest.
Proof.
  induction fuel as [|fuel IH]; intros ts l rest H; [discriminate H|]. cbn [block_statements] in H.
  destruct (expect (is tk_right_brace) ts) as [[q ts1]|] eqn:Q.
  - rdone H. exists ts. split; [apply sts_none | eapply expect_eats; exact Q].
  - rstep H s ts1 X. rstep H l' ts2 L. rdone H. apply IH in L. destruct L as (r & L & R).
    exists r. split; [|exact R]. eapply sts_more; [apply stmt_sound; exact X | exact L].
Qed.

Lemma block_sound : forall fuel ts l rest,
  match_block stmt fuel ts = Some (Ok (l, rest)) -> block_phrase upper ts l rest.
Proof.
  intros fuel ts l rest H. unfold match_block in H. rstep H p ts1 P.
  apply block_statements_sound in H. destruct H as (r & L & R).
  eapply block_intro; [eapply demand_eats; exact P | exact L | exact R].
Qed.

Lemma if_statement_sound : forall fuel an ts s rest,
  match_if_statement stmt fuel an ts = Some (Ok (s, rest)) -> if_phrase upper an ts s rest.
Proof.
  induction fuel as [|fuel IH]; intros an ts s rest H; [discriminate H|].
  cbn [match_if_statement] in H. rstep H k ts1 K. rstep H c ts2 C. rstep H b ts3 B.
  apply demand_eats in K. apply match_expression_sound in C. apply block_sound in B.
  destruct (expect (is tk_keyword_else) ts3) as [[q ts4]|] eqn:Q.
  - apply expect_eats in Q. rstep H e ts5 X. rdone H. destruct (peek (is tk_keyword_if) ts4).
    + apply IH in X. eapply if_else_if; [exact K | exact C | exact B | exact Q | apply as_none
        | right; reflexivity | exact X].
    + rstep X l ts6 L. rdone X. apply block_sound in L. eapply if_else; eassumption.
  - rdone H. eapply if_only; eassumption.
Qed.

Lemma while_sound : forall fuel an ts s rest,
  match_while stmt fuel an ts = Some (Ok (s, rest)) ->
  forall ts0, annotations_phrase ts0 an ts -> statement_phrase upper ts0 s rest.
Proof.
  intros fuel an ts s rest H ts0 A. unfold match_while in H. rstep H k ts1 K. rstep H c ts2 C.
  rstep H b ts3 B. rdone H. apply demand_eats in K. apply match_expression_sound in C.
  apply block_sound in B. eapply st_while; eassumption.
Qed.

Lemma break_sound : forall ts s rest,
  match_break ts = Some (Ok (s, rest)) -> statement_phrase upper ts s rest.
Proof.
  intros ts s rest H. unfold match_break in H. rstep H k ts1 K. rstep H c ts2 C. rdone H.
  eapply st_break; eapply demand_eats; eassumption.
Qed.

Lemma continue_sound : forall ts s rest,
  match_continue ts = Some (Ok (s, rest)) -> statement_phrase upper ts s rest.
Proof.
  intros ts s rest H. unfold match_continue in H. rstep H k ts1 K. rstep H c ts2 C. rdone H.
  eapply st_continue; eapply demand_eats; eassumption.
Qed.

Lemma return_sound : forall ts s rest,
  match_return ts = Some (Ok (s, rest)) -> statement_phrase upper ts s rest.
Proof.
  intros ts s rest H. unfold match_return in H. rstep H k ts1 K. apply demand_eats in K.
  destruct (expect (is tk_semicolon) ts1) as [[c ts2]|] eqn:C.
  - rdone H. eapply st_return_nothing; [exact K | eapply expect_eats; exact C].
  - rstep H e ts2 X. rstep H q ts3 Q. rdone H.
    eapply st_return; [exact K | apply match_expression_sound; exact X | eapply demand_eats; exact Q].
Qed.

Lemma statement_step_sound : forall fuel ts s rest,
  statement_step stmt fuel ts = Some (Ok (s, rest)) -> statement_phrase upper ts s rest.
Proof.
  intros fuel ts s rest H. unfold statement_step in H.
  destruct (skip_comments ts) as [|[k x] ts1] eqn:E; [discriminate H|].
  destruct k; try discriminate H; clear E ts1.
  all: first
    [ apply break_sound; exact H
    | apply continue_sound; exact H
    | apply return_sound; exact H
    | apply st_assertion, assertion_sound; exact H
    | eapply st_let; [apply as_none | apply let_sound; exact H]
    | eapply st_const; [apply as_none | apply const_sound; exact H]
    | eapply st_if; [apply as_none | eapply if_statement_sound; exact H]
    | eapply while_sound; [exact H | apply as_none]
    | idtac ].
  - unfold match_assignment_or_call in H. destruct (peek (is tk_identifier) ts); [|discriminate H].
    destruct (peek_second (is tk_assign) ts).
    + eapply st_assignment; [apply as_none | apply assignment_sound; exact H].
    + apply call_statement_sound. exact H.
  - rstep H l ts1 L. rdone H. apply st_block. eapply block_sound. exact L.
  - rstep H an ts1 A. apply match_annotation_sequence_sound in A. unfold match_annotated_statement in H.
    destruct (skip_comments ts1) as [|[k y] ts2] eqn:E; [discriminate H|].
    destruct k; try discriminate H; clear E ts2.
    all: first
      [ eapply st_let; [exact A | apply let_sound; exact H]
      | eapply st_const; [exact A | apply const_sound; exact H]
      | eapply st_if; [exact A | eapply if_statement_sound; exact H]
      | eapply while_sound; [exact H | exact A]
      | eapply st_assignment; [exact A | apply assignment_sound; exact H] ].
Qed.

End Statements.

Lemma statement_sound : forall fuel ts s rest,
  statement fuel ts = Some (Ok (s, rest)) -> statement_phrase upper ts s rest.
Proof.
  induction fuel as [|fuel IH]; intros ts s rest H; [discriminate H|]. cbn [statement] in H.
  eapply statement_step_sound; eassumption.
Qed.

(** ** Declarations *)

Lemma parameter_sound : forall ts p rest,
  match_parameter ts = Some (Ok (p, rest)) -> parameter_phrase upper ts p rest.
Proof.
  intros ts p rest H. unfold match_parameter in H. rstep H nm ts1 I1. rstep H c ts2 C. rstep H t ts3 T.
  rdone H. apply demand_is in I1. apply demand_eats in C.
  eapply type_sound in T; [|apply match_expression_sound]. econstructor; eassumption.
Qed.

Lemma parameter_sequence_sound : forall fuel ts l rest,
  parameter_sequence fuel ts = Some (Ok (l, rest)) -> parameters_phrase upper ts l rest.
Proof.
  induction fuel as [|fuel IH]; intros ts l rest H; [discriminate H|]. cbn [parameter_sequence] in H.
  rstep H p ts1 P. apply parameter_sound in P.
  destruct (expect (is tk_comma) ts1) as [[c ts2]|] eqn:C.
  - rstep H l' ts3 L. rdone H. eapply ps_more; [exact P | eapply expect_eats; exact C | apply IH; exact L].
  - rdone H. apply ps_one. exact P.
Qed.

Lemma requires_sound : forall ts e rest,
  optional_requires ts = Some (Ok (e, rest)) -> requires_phrase upper ts e rest.
Proof.
  intros ts e rest H. unfold optional_requires in H.
  destruct (expect (is tk_keyword_requires) ts) as [[c ts1]|] eqn:C.
  - rstep H e' ts2 X. rdone H. eapply rq_some; [eapply expect_eats; exact C|].
    apply match_expression_sound. exact X.
  - rdone H. apply rq_none.
Qed.

Lemma function_sound : forall an ts f rest,
  match_function an ts = Some (Ok (f, rest)) -> function_phrase upper an ts f rest.
Proof.
  intros an ts f rest H. unfold match_function in H. rstep H k ts1 K. rstep H nm ts2 I2.
  rstep H p ts3 P. rstep H ps ts4 PS. rstep H q ts5 Q. rstep H a ts6 A. rstep H t ts7 T.
  rstep H r ts8 R. rstep H b ts9 B. rdone H.
  apply demand_eats in K. apply demand_is in I2. apply demand_eats in P. apply demand_eats in Q.
  apply demand_eats in A. eapply type_sound in T; [|apply match_expression_sound].
  apply requires_sound in R. eapply block_sound in B; [|intros ? ? ?; apply statement_sound].
  econstructor; try eassumption. destruct (peek (is tk_right_parenthesis) ts3).
  - rdone PS. left. split; reflexivity.
  - right. eapply parameter_sequence_sound. exact PS.
Qed.

Lemma declaration_sound : forall ts x rest,
  match_program_declaration ts = Some (Ok (x, rest)) -> declaration_phrase upper ts x rest.
Proof.
  intros ts x rest H. unfold match_program_declaration in H.
  destruct (skip_comments ts) as [|[k y] ts1] eqn:E; [discriminate H|].
  destruct k; try discriminate H; clear E ts1.
  all: unfold const_declaration, function_declaration in H.
  - rstep H an ts1 A. apply match_annotation_sequence_sound in A.
    destruct (peek (is tk_keyword_const) ts1).
    + rstep H s ts2 C. rdone H. eapply dp_const; [exact A | apply const_sound; exact C].
    + destruct (peek (is tk_keyword_function) ts1); [|discriminate H].
      rstep H f ts2 F. rdone H. eapply dp_function; [exact A | apply function_sound; exact F].
  - rstep H s ts2 C. rdone H. eapply dp_const; [apply as_none | apply const_sound; exact C].
  - rstep H f ts2 F. rdone H. eapply dp_function; [apply as_none | apply function_sound; exact F].
  - rstep H s ts2 C. rdone H. apply dp_assertion, assertion_sound. exact C.
Qed.

Lemma at_end_skip : forall ts, at_end ts <-> skip_comments ts = [].
Proof.
  intros ts. split.
  - induction ts as [|[k x] ts IH]; intros H; [reflexivity|]. cbn.
    rewrite (proj2 (comment_iff k)); [|apply (H k x); left; reflexivity].
    apply IH. intros k' x' I'. apply (H k' x'). right. exact I'.
  - induction ts as [|[k x] ts IH]; intros H; [intros k x []|]. cbn in H.
    destruct (tk_is_comment k) eqn:C; [|discriminate H].
    intros k' x' [I'|I']; [injection I' as <- <-; apply comment_iff; exact C|].
    eapply IH; eassumption.
Qed.

Lemma declarations_sound : forall fuel ts l rest,
  program_declarations fuel ts = Some (Ok (l, rest)) -> program_phrase upper ts l.
Proof.
  induction fuel as [|fuel IH]; intros ts l rest H; [discriminate H|]. cbn [program_declarations] in H.
  rstep H x ts1 D. apply declaration_sound in D. destruct (skip_comments ts1) as [|t r] eqn:E.
  - rdone H. eapply pr_last; [exact D | apply at_end_skip; exact E].
  - rstep H l' ts2 L. rdone H. eapply pr_more; [exact D | eapply IH; exact L].
Qed.

Lemma parse_sound : forall ts p, parse ts = Some (Ok p) -> program_phrase upper ts p.
Proof.
  intros ts p H. unfold parse in H. rstep H p' rest P. injection H as <-.
  eapply declarations_sound. exact P.
Qed.
