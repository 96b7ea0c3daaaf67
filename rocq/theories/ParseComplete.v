(** The parser accepts the sentences of the grammar for which it chooses comparisons rightly:
    completeness of src/bms/parsing/parse.cpp. *)
From Coq Require Import ZArith Ascii String List Bool Lia.
From Verif Require Import Prelude Text Tables Annotations Ast Parse GrammarSpec ParseFacts.
Import ListNotations.
Open Scope string_scope.
Open Scope list_scope.
Open Scope Z_scope.

Scheme derive_min := Minimality for derive Sort Prop
  with derive_sequence_min := Minimality for derive_sequence Sort Prop
  with derive_type_min := Minimality for derive_type Sort Prop.
Combined Scheme derive_induction from derive_min, derive_sequence_min, derive_type_min.

Scheme statement_min := Minimality for statement_phrase Sort Prop
  with if_min := Minimality for if_phrase Sort Prop
  with block_min := Minimality for block_phrase Sort Prop
  with statements_min := Minimality for statements_phrase Sort Prop.
Combined Scheme statement_induction from statement_min, if_min, block_min, statements_min.

(** ** Tokens *)

Lemma token_then_suffix : forall ts k x rest,
  token_then ts k x rest -> exists p, ts = p ++ rest /\ p <> [].
Proof.
  induction 1 as [k x ts H | c x ts k y rest C T (p & -> & P)].
  - exists [(k, x)]. split; [reflexivity | intros E; discriminate E].
  - exists ((c, x) :: p). split; [reflexivity | intros E; discriminate E].
Qed.

Lemma token_then_shorter : forall ts k x rest,
  token_then ts k x rest -> (length rest < length ts)%nat.
Proof.
  intros ts k x rest H. apply token_then_suffix in H. destruct H as ([|t p] & -> & P).
  - contradiction.
  - rewrite app_length. cbn. lia.
Qed.

Lemma eats_shorter : forall k ts rest, eats k ts rest -> (length rest < length ts)%nat.
Proof. intros k ts rest (x & H). eapply token_then_shorter. exact H. Qed.

(** The token that comes next. *)
Definition next (k : token_type) (ts : list lexeme) : Prop := exists x rest, token_then ts k x rest.

Lemma eats_next : forall k ts rest, eats k ts rest -> next k ts.
Proof. intros k ts rest (x & H). exists x, rest. exact H. Qed.

Lemma token_next : forall k x ts rest, token_then ts k x rest -> next k ts.
Proof. intros k x ts rest H. exists x, rest. exact H. Qed.

Lemma expect_next : forall p k ts, next k ts -> p k = false -> expect p ts = None.
Proof. intros p k ts (x & rest & H) P. rewrite (expect_token _ _ _ _ _ H), P. reflexivity. Qed.

Lemma expect_eat : forall k ts rest,
  eats k ts rest -> exists x, expect (is k) ts = Some ((k, x), rest).
Proof.
  intros k ts rest (x & H). exists x. rewrite (expect_token _ _ _ _ _ H).
  rewrite (proj2 (is_iff k k) eq_refl). reflexivity.
Qed.

Lemma demand_eat : forall k r ts rest,
  eats k ts rest -> exists x, demand (is k) (alone r k) ts = matched (k, x) rest.
Proof.
  intros k r ts rest H. destruct (expect_eat _ _ _ H) as (x & E). exists x. unfold demand.
  rewrite E. reflexivity.
Qed.

Lemma demand_token : forall p r ts k x rest,
  token_then ts k x rest -> p k = true -> demand p r ts = matched (k, x) rest.
Proof.
  intros p r ts k x rest H P. unfold demand. rewrite (expect_token _ _ _ _ _ H), P. reflexivity.
Qed.

Lemma peek_next : forall p k ts, next k ts -> peek p ts = p k.
Proof.
  intros p k ts (x & rest & H). unfold peek. rewrite (expect_token _ _ _ _ _ H).
  destruct (p k); reflexivity.
Qed.

Lemma peek_none : forall p ts, expect p ts = None -> peek p ts = false.
Proof. intros p ts H. unfold peek. rewrite H. reflexivity. Qed.

Lemma peek_second_token : forall p ts k x rest,
  token_then ts k x rest -> peek_second p ts = peek p rest.
Proof.
  intros p ts k x rest H. apply token_then_skip in H. destruct H as [H _]. unfold peek_second.
  rewrite H. reflexivity.
Qed.

Lemma expect_weaken : forall (p q : token_type -> bool) ts,
  (forall k, p k = true -> q k = true) -> expect q ts = None -> expect p ts = None.
Proof.
  intros p q ts W H. unfold expect in *. destruct (skip_comments ts) as [|t r]; [reflexivity|].
  destruct (p (fst t)) eqn:P; [|reflexivity]. rewrite (W _ P) in H. discriminate H.
Qed.

Lemma expect_end : forall p ts, at_end ts -> expect p ts = None.
Proof. intros p ts H. apply at_end_skip in H. unfold expect. rewrite H. reflexivity. Qed.

Lemma token_then_unique : forall ts k x rest k' x' rest',
  token_then ts k x rest -> token_then ts k' x' rest' -> k = k' /\ x = x' /\ rest = rest'.
Proof.
  intros ts k x rest k' x' rest' A B. apply token_then_skip in A. apply token_then_skip in B.
  destruct A as [A _]. destruct B as [B _]. rewrite A in B. injection B as -> -> ->.
  repeat split; reflexivity.
Qed.

(** ** Annotations *)

Lemma argument_complete : forall ts a rest,
  annotation_arg ts a rest -> match_annotation_argument ts = matched a rest.
Proof.
  assert (V : forall key k x v rest,
    argument_text k x v ->
    (if is tk_string_literal k then
       if (2 <=? length x)%nat then
         matched (AA key (firstn (length x - 2) (skipn 1 x)) k) rest
       else Some Abort
     else matched (AA key x k) rest) = matched (AA key v k) rest).
  { intros key k x v rest A. unfold argument_text in A. unfold is.
    destruct (token_type_eqb k tk_string_literal); [|rewrite A; reflexivity].
    destruct A as (c & c' & ->). cbn [length skipn]. rewrite app_length. cbn [length].
    replace (2 <=? S (length v + 1))%nat with true by (symmetry; apply Nat.leb_le; lia).
    replace (_ - _)%nat with (length v) by lia.
    rewrite firstn_app, firstn_all, Nat.sub_diag. cbn [firstn]. rewrite app_nil_r. reflexivity. }
  intros ts a rest H. unfold match_annotation_argument. destruct H as
    [ts k x v rest T L A | ts key r1 r2 k x v rest I1 Q T L A].
  - rewrite (expect_token _ _ _ _ _ T).
    assert (N : is tk_identifier k = false)
      by (destruct (is tk_identifier k) eqn:E; [apply is_iff in E; subst k; cbn in L;
            decompose [or] L; try discriminate; contradiction | reflexivity]).
    rewrite N. unfold matched at 1. cbn [bind_result].
    rewrite (demand_token tk_is_literal _ _ _ _ _ T); [|apply literal_iff; exact L].
    cbn [matched bind_result fst snd]. apply V. exact A.
  - rewrite (expect_token _ _ _ _ _ I1). cbn [is token_type_eqb token_type_index Z.eqb Pos.eqb].
    destruct (demand_eat _ gr_annotation_argument _ _ Q) as (y & ->).
    cbn [matched bind_result snd].
    rewrite (demand_token tk_is_literal _ _ _ _ _ T); [|apply literal_iff; exact L].
    cbn [matched bind_result fst snd]. apply V. exact A.
Qed.

Lemma argument_shorter : forall ts a rest, annotation_arg ts a rest -> (length rest < length ts)%nat.
Proof.
  intros ts a rest H. destruct H as [ts k x v rest T L A | ts key r1 r2 k x v rest I1 Q T L A].
  - eapply token_then_shorter. exact T.
  - apply token_then_shorter in I1, T. apply eats_shorter in Q. lia.
Qed.

Lemma arguments_complete : forall ts l rest,
  annotation_args ts l rest -> expect (is tk_comma) rest = None ->
  forall fuel, (length ts < fuel)%nat -> annotation_arguments fuel ts = matched l rest.
Proof.
  induction 1 as [ts a rest A | ts a r1 r2 l rest A C L IH]; intros N fuel F;
    (destruct fuel as [|fuel]; [lia|]); cbn [annotation_arguments];
    rewrite (argument_complete _ _ _ A); cbn [matched bind_result].
  - rewrite N. reflexivity.
  - destruct (expect_eat _ _ _ C) as (x & ->). rewrite IH; [reflexivity | exact N |].
    apply argument_shorter in A. apply eats_shorter in C. lia.
Qed.

Lemma literal_first : forall ts l rest, annotation_args ts l rest ->
  expect (is tk_right_parenthesis) ts = None.
Proof.
  intros ts l rest H.
  assert (A : exists a r, annotation_arg ts a r) by (destruct H; eauto).
  destruct A as (a & r & A). destruct A as [ts k x v rest' T L A | ts key r1 r2 k x v rest' I1 Q T L A].
  - eapply expect_next; [eapply token_next; exact T|]. cbn in L. decompose [or] L; subst; try reflexivity.
    contradiction.
  - eapply expect_next; [eapply token_next; exact I1|]. reflexivity.
Qed.

Lemma argument_list_complete : forall ts l rest,
  argument_list ts l rest -> annotation_argument_list ts = matched l rest.
Proof.
  intros ts l rest H. unfold annotation_argument_list.
  destruct H as [ts r1 rest P Q | ts r1 l r2 rest P A Q].
  - destruct (expect_eat _ _ _ P) as (x & ->). destruct (expect_eat _ _ _ Q) as (y & ->). reflexivity.
  - destruct (expect_eat _ _ _ P) as (x & ->). rewrite (literal_first _ _ _ A).
    rewrite (arguments_complete _ _ _ A); [ | | lia].
    + cbn [matched bind_result]. destruct (demand_eat _ gr_annotation _ _ Q) as (y & ->). reflexivity.
    + eapply expect_next; [eapply eats_next; exact Q|]. reflexivity.
Qed.

(** What must not come after a phrase that ends with a name or a call. *)
Definition after_name (k : token_type) : bool := is tk_left_parenthesis k || is tk_at k.

Lemma annotation_complete : forall ts a rest,
  annotation_phrase ts a rest -> expect (is tk_left_parenthesis) rest = None ->
  match_annotation ts = matched a rest.
Proof.
  intros ts a rest H N. unfold match_annotation.
  destruct H as [ts r1 name rest A I1 | ts r1 name r2 args rest A I1 L].
  - destruct (demand_eat _ gr_annotation _ _ A) as (x & ->). cbn [matched bind_result].
    rewrite (demand_token _ _ _ _ _ _ I1 eq_refl). cbn [matched bind_result snd].
    unfold annotation_argument_list. rewrite N. reflexivity.
  - destruct (demand_eat _ gr_annotation _ _ A) as (x & ->). cbn [matched bind_result].
    rewrite (demand_token _ _ _ _ _ _ I1 eq_refl). cbn [matched bind_result snd].
    rewrite (argument_list_complete _ _ _ L). reflexivity.
Qed.

Lemma argument_list_shorter : forall ts l rest, argument_list ts l rest -> (length rest < length ts)%nat.
Proof.
  intros ts l rest H. destruct H as [ts r1 rest P Q | ts r1 l r2 rest P A Q].
  - apply eats_shorter in P, Q. lia.
  - apply eats_shorter in P, Q.
    assert (length r2 < length r1)%nat; [|lia].
    clear P Q. induction A as [ts' a rest' A | ts' a r r' l rest' A C L IH].
    + eapply argument_shorter. exact A.
    + apply argument_shorter in A. apply eats_shorter in C. lia.
Qed.

Lemma annotation_shorter : forall ts a rest,
  annotation_phrase ts a rest -> (length rest < length ts)%nat.
Proof.
  intros ts a rest H. destruct H as [ts r1 name rest A I1 | ts r1 name r2 args rest A I1 L];
    apply eats_shorter in A; apply token_then_shorter in I1.
  - lia.
  - apply argument_list_shorter in L. lia.
Qed.

Lemma annotation_first : forall ts a rest, annotation_phrase ts a rest -> next tk_at ts.
Proof. intros ts a rest H. destruct H; eapply eats_next; eassumption. Qed.

Lemma annotations_shorter : forall ts l rest,
  annotations_phrase ts l rest -> (length rest <= length ts)%nat.
Proof.
  induction 1 as [ts | ts a r1 l rest A L IH]; [lia|]. apply annotation_shorter in A. lia.
Qed.

Lemma sequence_complete : forall ts l rest,
  annotations_phrase ts l rest -> expect after_name rest = None -> l <> [] ->
  forall fuel, (length ts < fuel)%nat -> annotation_sequence fuel ts = matched l rest.
Proof.
  induction 1 as [ts | ts a r1 l rest A L IH]; intros N NE fuel F; [contradiction|].
  destruct fuel as [|fuel]; [lia|]. cbn [annotation_sequence].
  assert (NP : expect (is tk_left_parenthesis) r1 = None).
  { destruct L as [ts' | ts' a' r' l' rest' A' L'].
    - eapply expect_weaken; [|exact N]. intros k K. unfold after_name. rewrite K. reflexivity.
    - eapply expect_next; [eapply annotation_first; exact A'|]. reflexivity. }
  rewrite (annotation_complete _ _ _ A NP). cbn [matched bind_result].
  destruct L as [ts' | ts' a' r' l' rest' A' L'].
  - rewrite (peek_none (is tk_at)); [reflexivity|]. eapply expect_weaken; [|exact N].
    intros k K. unfold after_name. rewrite K. apply orb_true_r.
  - rewrite (peek_next _ tk_at); [|eapply annotation_first; exact A'].
    rewrite (proj2 (is_iff tk_at tk_at) eq_refl).
    rewrite IH; [reflexivity | exact N | discriminate |]. apply annotation_shorter in A. lia.
Qed.

Lemma match_sequence_complete : forall ts l rest,
  annotations_phrase ts l rest -> expect after_name rest = None -> l <> [] ->
  match_annotation_sequence ts = matched l rest.
Proof. intros. unfold match_annotation_sequence. apply sequence_complete; auto. Qed.

Lemma optional_annotations_complete : forall ts l rest,
  annotations_phrase ts l rest -> expect after_name rest = None ->
  optional_annotations ts = matched l rest.
Proof.
  intros ts l rest H N. unfold optional_annotations. destruct l as [|a l].
  - inversion H; subst. rewrite (peek_none (is tk_at)); [reflexivity|]. eapply expect_weaken; [|exact N].
    intros k K. unfold after_name. rewrite K. apply orb_true_r.
  - assert (A : next tk_at ts) by (inversion H; subst; eapply annotation_first; eassumption).
    rewrite (peek_next _ tk_at _ A). rewrite (proj2 (is_iff tk_at tk_at) eq_refl).
    apply match_sequence_complete; [exact H | exact N | discriminate].
Qed.

(** ** Expressions *)

Definition first_of_expression (k : token_type) : bool :=
  tk_is_literal k || is tk_identifier k || is tk_left_parenthesis k || tk_is_unary_operator k.

Lemma derive_first : forall d n ts e rest,
  derive d n ts e rest -> exists k, next k ts /\ first_of_expression k = true.
Proof.
  intros d n ts e rest H.
  induction H using derive_min with
    (P0 := fun ts _ _ => True) (P1 := fun _ _ _ => True); auto.
  - exists op. split; [eapply token_next; eassumption|]. apply unary_iff in H0.
    unfold first_of_expression. rewrite H0. apply orb_true_r.
  - exists tk_identifier. split; [eapply token_next; eassumption | reflexivity].
  - exists tk_identifier. split; [eapply token_next; eassumption | reflexivity].
  - exists k. split; [eapply token_next; eassumption|].
    assert (L : tk_is_literal k = true).
    { apply literal_iff. unfold literals. rewrite app_assoc. apply in_or_app.
      destruct H0 as [L|[_ ->]]; [left; exact L | right; left; reflexivity]. }
    unfold first_of_expression. rewrite L. reflexivity.
  - exists tk_identifier. split; [eapply token_next; eassumption | reflexivity].
  - exists tk_left_parenthesis. split; [eapply eats_next; eassumption | reflexivity].
Qed.

Lemma derive_not_first : forall d n ts e rest p,
  derive d n ts e rest -> (forall k, first_of_expression k = true -> p k = false) ->
  expect p ts = None.
Proof.
  intros d n ts e rest p H P. destruct (derive_first _ _ _ _ _ H) as (k & K & F).
  eapply expect_next; [exact K | apply P; exact F].
Qed.

Lemma derive_shorter : forall d,
  (forall n ts e rest, derive d n ts e rest -> (length rest < length ts)%nat) /\
  (forall ts l rest, derive_sequence d ts l rest -> (length rest < length ts)%nat) /\
  (forall ts t rest, derive_type d ts t rest -> (length rest < length ts)%nat).
Proof.
  intros d. apply derive_induction; intros;
    repeat match goal with
    | H : token_then _ _ _ _ |- _ => apply token_then_shorter in H
    | H : eats _ _ _ |- _ => apply eats_shorter in H
    | H : annotations_phrase _ _ _ |- _ => apply annotations_shorter in H
    end; lia.
Qed.

(** The tokens that must not come after a phrase. *)
Definition bad_after (n : nonterminal) (k : token_type) : bool :=
  match n with
  | n_expression | n_if =>
      after_name k || is tk_keyword_as k || tk_is_binary_operator k || is tk_keyword_if k
  | n_binary => after_name k || is tk_keyword_as k || tk_is_binary_operator k
  | n_arithmetic => after_name k || is tk_keyword_as k || tk_is_arithmetic_operator k
  | n_prefix | n_postfix | n_call | n_primary => after_name k
  | n_parenthesized => false
  end.

(** A parser of nested expressions that knows the phrases of fewer than [n] tokens. *)
Definition knows (expr : list lexeme -> result pexpr) (n : nat) : Prop :=
  forall ts e rest, (length ts < n)%nat ->
    (forall fuel, (length ts < fuel)%nat -> expression fuel ts = matched e rest) ->
    expr ts = matched e rest.

Lemma knows_expression : forall fuel n, (n <= fuel)%nat -> knows (expression fuel) n.
Proof. intros fuel n H ts e rest L F. apply F. lia. Qed.

Lemma knows_match : forall n, knows match_expression n.
Proof. intros n ts e rest L F. apply F. lia. Qed.

Lemma knows_less : forall expr n m, knows expr n -> (m <= n)%nat -> knows expr m.
Proof. intros expr n m K H ts e rest L F. apply K; [lia | exact F]. Qed.

(** The attempt to read a prefix expression is not followed by [as]. *)
Definition starts_plain (expr : list lexeme -> result pexpr) (n : nat) (ts : list lexeme) : Prop :=
  exists e r, match_prefix expr n ts = matched e r /\ peek (is tk_keyword_as) r = false.

Definition read_ok (n : nonterminal) (ts : list lexeme) (e : pexpr) (rest : list lexeme) : Prop :=
  match n with
  | n_expression =>
      forall fuel, (length ts < fuel)%nat -> expression fuel ts = matched e rest
  | n_if =>
      forall expr fuel g, knows expr (length ts) -> (length ts <= fuel)%nat -> (length ts < g)%nat ->
        match_if expr fuel g ts = matched e rest /\ starts_plain expr fuel ts
  | n_binary =>
      forall expr fuel, knows expr (length ts) -> (length ts <= fuel)%nat ->
        match_binary expr fuel ts = matched e rest /\ starts_plain expr fuel ts
  | n_arithmetic =>
      forall expr fuel, knows expr (length ts) -> (length ts <= fuel)%nat ->
        match_arithmetic expr fuel ts = matched e rest /\ starts_plain expr fuel ts
  | n_prefix =>
      forall expr fuel, knows expr (length ts) -> (length ts <= fuel)%nat ->
        match_prefix expr fuel ts = matched e rest
  | n_postfix =>
      forall expr fuel, knows expr (length ts) -> (length ts <= fuel)%nat ->
        match_postfix expr fuel ts = matched e rest
  | n_call =>
      forall expr fuel, knows expr (length ts) -> (length ts <= fuel)%nat ->
        match_call expr fuel ts = matched e rest
  | n_primary =>
      forall expr, knows expr (length ts) -> match_primary expr ts = matched e rest
  | n_parenthesized =>
      forall expr, knows expr (length ts) -> match_parenthesized expr ts = matched e rest
  end.

Definition read_sequence (ts : list lexeme) (l : list pexpr) (rest : list lexeme) : Prop :=
  forall expr g b last, knows expr (S (length ts)) -> (length ts < g)%nat ->
    eats tk_right_parenthesis rest last ->
    call_arguments expr g b ts = matched l last.

Definition read_type (ts : list lexeme) (t : ptype) (rest : list lexeme) : Prop :=
  forall expr, knows expr (length ts) -> match_type expr ts = matched t rest.

Lemma binary_not_name : forall k, tk_is_binary_operator k = true ->
  after_name k = false /\ is tk_keyword_as k = false.
Proof. destruct k; intros H; try discriminate H; split; reflexivity. Qed.

Lemma comparison_not_arithmetic : forall k, tk_is_comparison_operator k = true ->
  bad_after n_arithmetic k = false.
Proof. destruct k; intros H; try discriminate H; reflexivity. Qed.

Lemma arithmetic_binary : forall k, tk_is_arithmetic_operator k = true -> tk_is_binary_operator k = true.
Proof. destruct k; intros H; try discriminate H; reflexivity. Qed.

Ltac weaken N := eapply expect_weaken; [|exact N]; cbn [bad_after];
  let k := fresh "k" in let K := fresh "K" in
  intros k K; rewrite ?K, ?orb_true_r; try reflexivity;
  destruct k; try discriminate K; try reflexivity.

Ltac shorter d := repeat match goal with
  | H : token_then _ _ _ _ |- _ => apply token_then_shorter in H
  | H : eats _ _ _ |- _ => apply eats_shorter in H
  | H : annotations_phrase _ _ _ |- _ => apply annotations_shorter in H
  | H : derive d _ _ _ _ |- _ => apply (proj1 (derive_shorter d)) in H
  | H : derive_sequence d _ _ _ |- _ => apply (proj1 (proj2 (derive_shorter d))) in H
  | H : derive_type d _ _ _ |- _ => apply (proj2 (proj2 (derive_shorter d))) in H
  end.

Ltac knowing d K := eapply knows_less; [exact K|]; shorter d; lia.

Lemma derive_complete :
  (forall n ts e rest, derive lower n ts e rest ->
    expect (bad_after n) rest = None -> read_ok n ts e rest) /\
  (forall ts l rest, derive_sequence lower ts l rest -> read_sequence ts l rest) /\
  (forall ts t rest, derive_type lower ts t rest -> read_type ts t rest).
Proof.
  apply derive_induction.
  - (* conversion *)
    intros ts e r1 r2 t rest D1 R1 Q D2 R2 N. cbn [read_ok]. intros fuel F.
    assert (N1 : expect (bad_after n_prefix) r1 = None)
      by (eapply expect_next; [eapply eats_next; exact Q | reflexivity]).
    specialize (R1 N1). cbn [read_ok] in R1.
    destruct fuel as [|fuel]; [lia|]. cbn [expression].
    assert (K : knows (expression fuel) (length ts)) by (apply knows_expression; lia).
    unfold is_conversion. rewrite (R1 _ fuel K); [|lia]. unfold matched at 1.
    rewrite (peek_next _ _ _ (eats_next _ _ _ Q)). cbn [is token_type_eqb token_type_index Z.eqb Pos.eqb
      bind_result].
    unfold match_conversion. rewrite (R1 _ fuel K); [|lia]. cbn [matched bind_result].
    destruct (demand_eat _ gr_conversion_expression _ _ Q) as (y & ->). cbn [matched bind_result].
    rewrite R2; [reflexivity|]. knowing lower K.
  - (* if *)
    intros ts e rest D R N. cbn [read_ok]. intros fuel F. destruct fuel as [|fuel]; [lia|].
    cbn [expression]. assert (K : knows (expression fuel) (length ts)) by (apply knows_expression; lia).
    destruct (R N (expression fuel) fuel (S fuel) K) as [M (p & r & P & A)]; [lia | lia |].
    unfold is_conversion. rewrite P. unfold matched at 1. rewrite A. cbn [bind_result]. exact M.
  - intros ts e rest D R N. cbn [read_ok]. intros expr fuel g K F G. destruct g as [|g]; [lia|].
    assert (N1 : expect (bad_after n_binary) rest = None) by weaken N.
    destruct (R N1 expr fuel K F) as [M P]. split; [|exact P]. cbn [match_if]. rewrite M.
    cbn [matched bind_result].
    assert (N2 : expect (is tk_keyword_if) rest = None) by weaken N.
    rewrite N2. reflexivity.
  - intros ts a r1 r2 c r3 r4 b rest D1 R1 Q D2 R2 Q' D3 R3 N. cbn [read_ok].
    intros expr fuel g K F G. destruct g as [|g]; [lia|].
    assert (N1 : expect (bad_after n_binary) r1 = None)
      by (eapply expect_next; [eapply eats_next; exact Q | reflexivity]).
    assert (N2 : expect (bad_after n_binary) r3 = None)
      by (eapply expect_next; [eapply eats_next; exact Q' | reflexivity]).
    assert (K2 : knows expr (length r2)) by knowing lower K.
    assert (K4 : knows expr (length r4)) by knowing lower K.
    assert (L4 : (length r4 < length ts)%nat) by (shorter lower; lia).
    assert (L2 : (length r2 < length ts)%nat) by (shorter lower; lia).
    destruct (R1 N1 expr fuel K F) as [M1 P1]. split; [|exact P1].
    destruct (R2 N2 expr fuel K2) as [M2 _]; [lia|].
    destruct (R3 N expr fuel g K4) as [M3 _]; [lia | lia |].
    cbn [match_if]. rewrite M1. cbn [matched bind_result].
    destruct (expect_eat _ _ _ Q) as (x & ->). rewrite M2. cbn [matched bind_result].
    destruct (demand_eat _ gr_if_expression _ _ Q') as (y & ->). cbn [matched bind_result].
    rewrite M3. reflexivity.
  - (* comparison *)
    intros ts a r1 op x r2 b rest C D1 R1 T O D2 R2 N. cbn [read_ok]. intros expr fuel K F.
    apply comparison_iff in O. apply foreseen_iff in C.
    assert (N1 : expect (bad_after n_arithmetic) r1 = None)
      by (eapply expect_next; [eapply token_next; exact T | apply comparison_not_arithmetic; exact O]).
    assert (N2 : expect (bad_after n_arithmetic) rest = None).
    { eapply expect_weaken; [|exact N]. cbn [bad_after]. intros k. destruct k; cbn; auto. }
    assert (K2 : knows expr (length r2)) by knowing lower K.
    assert (L2 : (length r2 < length ts)%nat) by (shorter lower; lia).
    destruct (R1 N1 expr fuel K F) as [M1 P1]. split; [|exact P1].
    destruct (R2 N2 expr fuel K2) as [M2 _]; [lia|].
    unfold match_binary. rewrite C. unfold match_comparison. rewrite M1. cbn [matched bind_result].
    rewrite (demand_token _ _ _ _ _ _ T O). cbn [matched bind_result]. rewrite M2. reflexivity.
  - (* operand *)
    intros ts e rest C D R N. cbn [read_ok]. intros expr fuel K F. apply foreseen_iff in C.
    assert (N1 : expect (bad_after n_prefix) rest = None) by weaken N.
    assert (N2 : expect tk_is_binary_operator rest = None) by weaken N.
    assert (N3 : expect (is tk_keyword_as) rest = None) by weaken N.
    pose proof (R N1 expr fuel K F) as M. split.
    + unfold match_binary. rewrite C, M. cbn [matched bind_result]. rewrite N2. reflexivity.
    + exists e, rest. split; [exact M | apply peek_none; exact N3].
  - (* operation *)
    intros ts a r1 op x r2 b rest C D1 R1 T O D2 R2 N. cbn [read_ok]. intros expr fuel K F.
    apply foreseen_iff in C. apply binary_iff in O. destruct (binary_not_name _ O) as [O1 O2].
    assert (N1 : expect (bad_after n_prefix) r1 = None)
      by (eapply expect_next; [eapply token_next; exact T | exact O1]).
    assert (N2 : expect (bad_after n_prefix) rest = None) by weaken N.
    assert (K2 : knows expr (length r2)) by knowing lower K.
    assert (L2 : (length r2 < length ts)%nat) by (shorter lower; lia).
    pose proof (R1 N1 expr fuel K F) as M1. split.
    + unfold match_binary. rewrite C, M1. cbn [matched bind_result].
      rewrite (expect_token _ _ _ _ _ T), O. rewrite R2; [reflexivity | exact N2 | exact K2 | lia].
    + exists a, r1. split; [exact M1|]. rewrite (peek_next _ op); [exact O2 | eapply token_next; exact T].
  - (* arithmetic operand *)
    intros ts e rest D R N. cbn [read_ok]. intros expr fuel K F.
    assert (N1 : expect (bad_after n_prefix) rest = None) by weaken N.
    assert (N2 : expect tk_is_arithmetic_operator rest = None) by weaken N.
    assert (N3 : expect (is tk_keyword_as) rest = None) by weaken N.
    pose proof (R N1 expr fuel K F) as M. split.
    + unfold match_arithmetic. rewrite M. cbn [matched bind_result]. rewrite N2. reflexivity.
    + exists e, rest. split; [exact M | apply peek_none; exact N3].
  - intros ts a r1 op x r2 b rest D1 R1 T O D2 R2 N. cbn [read_ok]. intros expr fuel K F.
    apply arithmetic_iff in O. destruct (binary_not_name _ (arithmetic_binary _ O)) as [O1 O2].
    assert (N1 : expect (bad_after n_prefix) r1 = None)
      by (eapply expect_next; [eapply token_next; exact T | exact O1]).
    assert (N2 : expect (bad_after n_prefix) rest = None) by weaken N.
    assert (K2 : knows expr (length r2)) by knowing lower K.
    assert (L2 : (length r2 < length ts)%nat) by (shorter lower; lia).
    pose proof (R1 N1 expr fuel K F) as M1. split.
    + unfold match_arithmetic. rewrite M1. cbn [matched bind_result].
      rewrite (expect_token _ _ _ _ _ T), O. rewrite R2; [reflexivity | exact N2 | exact K2 | lia].
    + exists a, r1. split; [exact M1|]. rewrite (peek_next _ op); [exact O2 | eapply token_next; exact T].
  - (* prefix *)
    intros ts op x r1 e rest T O D R N. cbn [read_ok]. intros expr fuel K F. apply unary_iff in O.
    assert (K1 : knows expr (length r1)) by knowing lower K.
    assert (L1 : (length r1 < length ts)%nat) by (shorter lower; lia).
    unfold match_prefix. rewrite (expect_token _ _ _ _ _ T), O.
    rewrite (R N expr fuel K1); [reflexivity | lia].
  - intros ts e rest D R N. cbn [read_ok]. intros expr fuel K F. unfold match_prefix.
    assert (U : expect tk_is_unary_operator ts = None).
    { clear K F R. inversion D; subst.
      - eapply expect_next with (k := tk_identifier); [|reflexivity].
        match goal with H : derive lower n_call _ _ _ |- _ => inversion H; subst end;
          eapply token_next; eassumption.
      - match goal with H : derive lower n_primary _ _ _ |- _ => inversion H; subst end.
        + eapply expect_next; [eapply token_next; eassumption|].
          match goal with H : _ \/ _ |- _ => destruct H as [L|[_ ->]] end; [|reflexivity].
          cbn in L. decompose [or] L; subst; try reflexivity; contradiction.
        + eapply expect_next; [eapply token_next; eassumption | reflexivity].
        + match goal with H : derive lower n_parenthesized _ _ _ |- _ => inversion H; subst end.
          eapply expect_next; [eapply eats_next; eassumption | reflexivity]. }
    rewrite U. apply R; assumption.
  - (* postfix: call *)
    intros ts e rest D R N. cbn [read_ok]. intros expr fuel K F. unfold match_postfix.
    assert (C : exists name r1 r2,
      token_then ts tk_identifier name r1 /\ eats tk_left_parenthesis r1 r2)
      by (inversion D; subst; eauto).
    destruct C as (name & r1 & r2 & T & Q).
    rewrite (peek_next _ _ _ (token_next _ _ _ _ T)), (peek_second_token _ _ _ _ _ T),
      (peek_next _ _ _ (eats_next _ _ _ Q)).
    cbn [is token_type_eqb token_type_index Z.eqb Pos.eqb andb]. apply R; assumption.
  - (* postfix: primary *)
    intros ts e rest D R N. cbn [read_ok]. intros expr fuel K F. unfold match_postfix.
    assert (C : peek (is tk_identifier) ts && peek_second (is tk_left_parenthesis) ts = false).
    { clear K F R. inversion D; subst.
      - match goal with H : token_then _ _ _ _ |- _ => rewrite (peek_next _ _ _ (token_next _ _ _ _ H)) end.
        match goal with H : _ \/ _ |- _ => destruct H as [L|[_ ->]] end; [|reflexivity].
        cbn in L. decompose [or] L; subst; try reflexivity; contradiction.
      - match goal with H : token_then _ _ _ _ |- _ =>
          rewrite (peek_second_token _ _ _ _ _ H) end.
        rewrite (peek_none (is tk_left_parenthesis) rest); [apply andb_false_r|].
        eapply expect_weaken; [|exact N]. cbn [bad_after]. unfold after_name. intros k ->. reflexivity.
      - match goal with H : derive lower n_parenthesized _ _ _ |- _ => inversion H; subst end.
        match goal with H : eats tk_left_parenthesis ts _ |- _ =>
          rewrite (peek_next _ _ _ (eats_next _ _ _ H)) end. reflexivity. }
    rewrite C. apply R; assumption.
  - (* call without arguments *)
    intros ts name r1 r2 r3 an rest T P Q A N. cbn [read_ok]. intros expr fuel K F. unfold match_call.
    rewrite (demand_token _ _ _ _ _ _ T eq_refl). cbn [matched bind_result].
    destruct (demand_eat _ gr_function_call_expression _ _ P) as (x & ->). cbn [matched bind_result].
    destruct fuel as [|fuel]; [shorter lower; lia|]. cbn [call_arguments].
    destruct (expect_eat _ _ _ Q) as (y & ->). cbn [matched bind_result].
    rewrite (optional_annotations_complete _ _ _ A N). reflexivity.
  - (* call *)
    intros ts name r1 r2 args r3 r4 an rest T P D R Q A N. cbn [read_ok]. intros expr fuel K F.
    unfold match_call.
    rewrite (demand_token _ _ _ _ _ _ T eq_refl). cbn [matched bind_result].
    destruct (demand_eat _ gr_function_call_expression _ _ P) as (x & ->). cbn [matched bind_result].
    rewrite (R expr fuel false r4); [ | knowing lower K | shorter lower; lia | exact Q ].
    cbn [matched bind_result].
    rewrite (optional_annotations_complete _ _ _ A N). reflexivity.
  - (* literal *)
    intros ts k x rest T L N. cbn [read_ok]. intros expr K. unfold match_primary.
    rewrite (expect_token _ _ _ _ _ T).
    assert (L' : tk_is_literal k = true).
    { apply literal_iff. unfold literals. rewrite app_assoc. apply in_or_app.
      destruct L as [L|[_ ->]]; [left; exact L | right; left; reflexivity]. }
    rewrite L'. reflexivity.
  - (* identifier *)
    intros ts x rest T N. cbn [read_ok]. intros expr K. unfold match_primary.
    rewrite !(expect_token _ _ _ _ _ T). reflexivity.
  - (* parenthesized *)
    intros ts e rest D R N. cbn [read_ok]. intros expr K. unfold match_primary.
    assert (E : next tk_left_parenthesis ts) by (inversion D; subst; eapply eats_next; eassumption).
    rewrite (expect_next _ _ _ E eq_refl), (expect_next _ _ _ E eq_refl).
    assert (N1 : expect (bad_after n_parenthesized) rest = None).
    { eapply expect_weaken; [|exact N]. intros k H. discriminate H. }
    rewrite (R N1 expr K). reflexivity.
  - intros ts r1 e r2 rest P D R Q N. cbn [read_ok]. intros expr K. unfold match_parenthesized.
    destruct (demand_eat _ gr_parenthesized_expression _ _ P) as (x & ->). cbn [matched bind_result].
    assert (N1 : expect (bad_after n_expression) r2 = None)
      by (eapply expect_next; [eapply eats_next; exact Q | reflexivity]).
    rewrite (K r1 e r2); [ | shorter lower; lia | apply R; exact N1 ]. cbn [matched bind_result].
    destruct (demand_eat _ gr_parenthesized_expression _ _ Q) as (y & ->). reflexivity.
  - (* last argument *)
    intros ts e rest D R expr g b last K G Q. destruct g as [|g]; [lia|]. cbn [call_arguments].
    assert (F : expect (is tk_right_parenthesis) ts = None).
    { eapply derive_not_first; [exact D|]. intros k. destruct k; intros H; try discriminate H; reflexivity. }
    rewrite F.
    assert (N1 : expect (bad_after n_expression) rest = None)
      by (eapply expect_next; [eapply eats_next; exact Q | reflexivity]).
    replace (if b then None else None) with (@None (lexeme * list lexeme)) by (destruct b; reflexivity).
    rewrite (K ts e rest); [ | lia | apply R; exact N1 ]. cbn [matched bind_result].
    rewrite (expect_next _ _ _ (eats_next _ _ _ Q) eq_refl).
    destruct g as [|g]; [shorter lower; lia|]. cbn [call_arguments].
    destruct (expect_eat _ _ _ Q) as (y & ->). reflexivity.
  - (* more arguments *)
    intros ts e r1 r2 l rest D R C D' R' expr g b last K G Q. destruct g as [|g]; [lia|].
    cbn [call_arguments].
    assert (F : expect (is tk_right_parenthesis) ts = None).
    { eapply derive_not_first; [exact D|]. intros k. destruct k; intros H; try discriminate H; reflexivity. }
    rewrite F.
    assert (N1 : expect (bad_after n_expression) r1 = None)
      by (eapply expect_next; [eapply eats_next; exact C | reflexivity]).
    replace (if b then None else None) with (@None (lexeme * list lexeme)) by (destruct b; reflexivity).
    rewrite (K ts e r1); [ | lia | apply R; exact N1 ]. cbn [matched bind_result].
    destruct (expect_eat _ _ _ C) as (y & ->).
    rewrite (R' expr g true last); [ reflexivity | knowing lower K | shorter lower; lia | exact Q ].
  - intros ts e r1 l rest H. discriminate H.
  - intros ts rest Q expr K. unfold match_type.
    rewrite (expect_next _ _ _ (eats_next _ _ _ Q) eq_refl). destruct (expect_eat _ _ _ Q) as (y & ->).
    reflexivity.
  - intros ts rest Q expr K. unfold match_type.
    rewrite !(expect_next _ _ _ (eats_next _ _ _ Q) eq_refl). destruct (expect_eat _ _ _ Q) as (y & ->).
    reflexivity.
  - intros ts rest Q expr K. unfold match_type.
    destruct (expect_eat _ _ _ Q) as (y & ->). reflexivity.
  - intros ts r1 e rest Q D R expr K. unfold match_type.
    rewrite !(expect_next _ _ _ (eats_next _ _ _ Q) eq_refl). destruct (expect_eat _ _ _ Q) as (y & ->).
    rewrite R; [reflexivity | | knowing lower K].
    unfold expect. destruct (skip_comments rest); reflexivity.
Qed.

Lemma expression_complete : forall ts e rest k,
  derive lower n_expression ts e rest -> next k rest -> bad_after n_expression k = false ->
  match_expression ts = matched e rest.
Proof.
  intros ts e rest k D K B. apply (proj1 derive_complete) in D.
  - apply D. lia.
  - eapply expect_next; eassumption.
Qed.

Lemma parenthesized_complete : forall ts e rest,
  derive lower n_parenthesized ts e rest -> match_parenthesized match_expression ts = matched e rest.
Proof.
  intros ts e rest D. apply (proj1 derive_complete) in D.
  - apply D. apply knows_match.
  - unfold expect. destruct (skip_comments rest); reflexivity.
Qed.

Lemma type_complete : forall ts t rest,
  derive_type lower ts t rest -> match_type match_expression ts = matched t rest.
Proof. intros ts t rest D. apply (proj2 (proj2 derive_complete)) in D. apply D. apply knows_match. Qed.

Lemma type_phrase_complete : forall ts t rest,
  type_phrase lower ts t rest -> (t = None -> expect (is tk_colon) rest = None) ->
  optional_type ts = matched t rest.
Proof.
  intros ts t rest H N. unfold optional_type. destruct H as [ts | ts r1 t rest C D].
  - rewrite (N eq_refl). reflexivity.
  - destruct (expect_eat _ _ _ C) as (x & ->). rewrite (type_complete _ _ _ D). reflexivity.
Qed.

Lemma initializer_complete : forall ts e rest k,
  initializer_phrase lower ts e rest -> next k rest -> bad_after n_expression k = false ->
  match_initializer ts = matched e rest.
Proof.
  intros ts e rest k (r1 & Q & D) K B. unfold match_initializer.
  destruct (demand_eat _ gr_initializer _ _ Q) as (x & ->). cbn [matched bind_result].
  eapply expression_complete; eassumption.
Qed.

Lemma initializer_first : forall ts e rest, initializer_phrase lower ts e rest -> next tk_assign ts.
Proof. intros ts e rest (r1 & Q & _). eapply eats_next. exact Q. Qed.

(** ** Statements *)

Ltac eat Q r := destruct (demand_eat _ r _ _ Q) as (? & ->); cbn [matched bind_result].
Ltac tok T := rewrite (demand_token _ _ _ _ _ _ T eq_refl); cbn [matched bind_result snd].

Lemma let_complete : forall an ts s rest,
  let_phrase lower an ts s rest -> match_let an ts = matched s rest.
Proof.
  intros an ts s rest H. unfold match_let.
  destruct H as [ts r1 x r2 r3 t r4 rest K I1 C D S1 | ts r1 x r2 t r3 e r4 rest K I1 T E S1].
  - eat K gr_let_declaration. tok I1.
    rewrite (type_phrase_complete r2 (Some t) r4);
      [ | eapply tp_some; eassumption | intros H; discriminate H ].
    cbn [matched bind_result orb].
    rewrite (peek_next _ _ _ (eats_next _ _ _ S1)). cbn [is token_type_eqb token_type_index Z.eqb Pos.eqb].
    cbn [matched bind_result]. eat S1 gr_let_declaration. reflexivity.
  - eat K gr_let_declaration. tok I1.
    rewrite (type_phrase_complete r2 t r3 T);
      [ | intros _; eapply expect_next; [eapply initializer_first; exact E | reflexivity] ].
    cbn [matched bind_result].
    rewrite (peek_next _ _ _ (initializer_first _ _ _ E)).
    cbn [is token_type_eqb token_type_index Z.eqb Pos.eqb]. rewrite orb_true_r.
    rewrite (initializer_complete _ _ _ tk_semicolon E); [ | eapply eats_next; exact S1 | reflexivity].
    cbn [matched bind_result]. eat S1 gr_let_declaration. reflexivity.
Qed.

Lemma const_complete : forall an ts s rest,
  const_phrase lower an ts s rest -> match_const an ts = matched s rest.
Proof.
  intros an ts s rest H. unfold match_const. destruct H as [ts r1 x r2 t r3 e r4 rest K I1 T E S1].
  eat K gr_const_declaration. tok I1.
  rewrite (type_phrase_complete r2 t r3 T);
    [ | intros _; eapply expect_next; [eapply initializer_first; exact E | reflexivity] ].
  cbn [matched bind_result].
  rewrite (initializer_complete _ _ _ tk_semicolon E); [ | eapply eats_next; exact S1 | reflexivity].
  cbn [matched bind_result]. eat S1 gr_const_declaration. reflexivity.
Qed.

Lemma assertion_complete : forall ts s rest,
  assertion_phrase lower ts s rest -> match_static_assertion ts = matched s rest.
Proof.
  intros ts s rest H. unfold match_static_assertion. destruct H as [ts r1 e r2 rest K D S1].
  eat K gr_static_assertion. rewrite (parenthesized_complete _ _ _ D). cbn [matched bind_result].
  eat S1 gr_static_assertion. reflexivity.
Qed.

Lemma assignment_complete : forall an ts s rest,
  assignment_phrase lower an ts s rest -> match_assignment_statement an ts = matched s rest.
Proof.
  intros an ts s rest H. unfold match_assignment_statement, match_assignment.
  destruct H as [ts x r1 r2 e r3 rest I1 Q D S1].
  tok I1. eat Q gr_assignment.
  rewrite (expression_complete _ _ _ tk_semicolon D); [ | eapply eats_next; exact S1 | reflexivity].
  cbn [matched bind_result]. eat S1 gr_assignment_statement. reflexivity.
Qed.

Lemma call_statement_complete : forall ts name args an r1 rest,
  derive lower n_call ts (PCall name args an false) r1 -> eats tk_semicolon r1 rest ->
  match_function_call_statement ts = matched (PExpr (PCall name args an true)) rest.
Proof.
  intros ts name args an r1 rest D Q. unfold match_function_call_statement.
  assert (N : expect (bad_after n_call) r1 = None)
    by (eapply expect_next; [eapply eats_next; exact Q | reflexivity]).
  rewrite (proj1 derive_complete _ _ _ _ D N match_expression (S (length ts)));
    [ | apply knows_match | lia ].
  cbn [matched bind_result]. eat Q gr_function_call_statement. reflexivity.
Qed.

Lemma statement_shorter :
  (forall ts s rest, statement_phrase lower ts s rest -> (length rest < length ts)%nat) /\
  (forall an ts s rest, if_phrase lower an ts s rest -> (length rest < length ts)%nat) /\
  (forall ts l rest, block_phrase lower ts l rest -> (length rest < length ts)%nat) /\
  (forall ts l rest, statements_phrase lower ts l rest -> (length rest <= length ts)%nat).
Proof.
  assert (TP : forall ts t rest, type_phrase lower ts t rest -> (length rest <= length ts)%nat).
  { intros ts t rest H. destruct H; shorter lower; lia. }
  assert (IP : forall ts e rest, initializer_phrase lower ts e rest -> (length rest < length ts)%nat).
  { intros ts e rest (r1 & Q & D). shorter lower. lia. }
  apply statement_induction; intros;
    repeat match goal with
    | H : let_phrase _ _ _ _ _ |- _ => destruct H
    | H : const_phrase _ _ _ _ _ |- _ => destruct H
    | H : assignment_phrase _ _ _ _ _ |- _ => destruct H
    | H : assertion_phrase _ _ _ _ |- _ => destruct H
    end;
    repeat match goal with
    | H : type_phrase _ _ _ _ |- _ => apply TP in H
    | H : initializer_phrase _ _ _ _ |- _ => apply IP in H
    end; shorter lower; lia.
Qed.

(** A parser of nested statements that knows the phrases of fewer than [n] tokens. *)
Definition knows_statements (stmt : list lexeme -> result pstmt) (n : nat) : Prop :=
  forall ts s rest, (length ts < n)%nat ->
    (forall fuel, (length ts < fuel)%nat -> statement fuel ts = matched s rest) ->
    stmt ts = matched s rest.

Lemma knows_statement : forall fuel n, (n <= fuel)%nat -> knows_statements (statement fuel) n.
Proof. intros fuel n H ts s rest L F. apply F. lia. Qed.

Lemma knows_match_statement : forall n, knows_statements match_statement n.
Proof. intros n ts s rest L F. apply F. lia. Qed.

Lemma knows_fewer : forall stmt n m, knows_statements stmt n -> (m <= n)%nat -> knows_statements stmt m.
Proof. intros stmt n m K H ts s rest L F. apply K; [lia | exact F]. Qed.

Definition first_of_statement (k : token_type) : bool :=
  match k with
  | tk_at | tk_keyword_let | tk_keyword_const | tk_keyword_static_assert | tk_identifier
  | tk_keyword_break | tk_keyword_continue | tk_keyword_return | tk_keyword_if | tk_keyword_while
  | tk_left_brace => true
  | _ => false
  end.

Lemma annotations_first : forall ts an r1 k,
  annotations_phrase ts an r1 -> next k r1 -> (an = [] /\ r1 = ts) \/ (an <> [] /\ next tk_at ts).
Proof.
  intros ts an r1 k A K. destruct A as [ts | ts a r l rest A L].
  - left. split; reflexivity.
  - right. split; [discriminate | eapply annotation_first; exact A].
Qed.

Lemma let_first : forall an ts s rest, let_phrase lower an ts s rest -> next tk_keyword_let ts.
Proof. intros an ts s rest H. destruct H; eapply eats_next; eassumption. Qed.
Lemma const_first : forall d an ts s rest, const_phrase d an ts s rest -> next tk_keyword_const ts.
Proof. intros d an ts s rest H. destruct H; eapply eats_next; eassumption. Qed.
Lemma assertion_first : forall d ts s rest, assertion_phrase d ts s rest -> next tk_keyword_static_assert ts.
Proof. intros d ts s rest H. destruct H; eapply eats_next; eassumption. Qed.
Lemma assignment_first : forall an ts s rest, assignment_phrase lower an ts s rest -> next tk_identifier ts.
Proof. intros an ts s rest H. destruct H; eapply token_next; eassumption. Qed.
Lemma if_first : forall an ts s rest, if_phrase lower an ts s rest -> next tk_keyword_if ts.
Proof. intros an ts s rest H. destruct H; eapply eats_next; eassumption. Qed.
Lemma block_first : forall ts s rest, block_phrase lower ts s rest -> next tk_left_brace ts.
Proof. intros ts s rest H. destruct H; eapply eats_next; eassumption. Qed.
Lemma call_first : forall ts s rest, derive lower n_call ts s rest -> next tk_identifier ts.
Proof. intros ts s rest H. inversion H; subst; eapply token_next; eassumption. Qed.

Lemma statement_first : forall ts s rest,
  statement_phrase lower ts s rest -> exists k, next k ts /\ first_of_statement k = true.
Proof.
  assert (A : forall ts an r1 k, annotations_phrase ts an r1 -> next k r1 ->
    first_of_statement k = true -> exists k, next k ts /\ first_of_statement k = true).
  { intros ts an r1 k A K F. destruct (annotations_first _ _ _ _ A K) as [[_ E]|[_ E]].
    - subst r1. exists k. split; assumption.
    - exists tk_at. split; [exact E | reflexivity]. }
  intros ts s rest H. destruct H.
  - eapply A; [eassumption | eapply let_first; eassumption | reflexivity].
  - eapply A; [eassumption | eapply const_first; eassumption | reflexivity].
  - eexists. split; [eapply assertion_first; eassumption | reflexivity].
  - eapply A; [eassumption | eapply assignment_first; eassumption | reflexivity].
  - eexists. split; [eapply call_first; eassumption | reflexivity].
  - eexists. split; [eapply eats_next; eassumption | reflexivity].
  - eexists. split; [eapply eats_next; eassumption | reflexivity].
  - eexists. split; [eapply eats_next; eassumption | reflexivity].
  - eexists. split; [eapply eats_next; eassumption | reflexivity].
  - eapply A; [eassumption | eapply if_first; eassumption | reflexivity].
  - eapply A; [eassumption | eapply eats_next; eassumption | reflexivity].
  - eexists. split; [eapply block_first; eassumption | reflexivity].
Qed.

Lemma next_skip : forall k ts, next k ts -> exists x rest, skip_comments ts = (k, x) :: rest.
Proof. intros k ts (x & rest & T). apply token_then_skip in T. exists x, rest. apply T. Qed.

Definition read_statement (ts : list lexeme) (s : pstmt) (rest : list lexeme) : Prop :=
  expect (is tk_keyword_else) rest = None ->
  forall fuel, (length ts < fuel)%nat -> statement fuel ts = matched s rest.

Definition read_if (an : list parsed_annotation) (ts : list lexeme) (s : pstmt) (rest : list lexeme)
  : Prop :=
  expect (is tk_keyword_else) rest = None ->
  forall stmt fuel, knows_statements stmt (length ts) -> (length ts < fuel)%nat ->
    match_if_statement stmt fuel an ts = matched s rest.

Definition read_block (ts : list lexeme) (l : list pstmt) (rest : list lexeme) : Prop :=
  forall stmt fuel, knows_statements stmt (length ts) -> (length ts <= fuel)%nat ->
    match_block stmt fuel ts = matched l rest.

Definition read_statements (ts : list lexeme) (l : list pstmt) (rest : list lexeme) : Prop :=
  forall last, eats tk_right_brace rest last ->
  forall stmt fuel, knows_statements stmt (S (length ts)) -> (length ts < fuel)%nat ->
    block_statements stmt fuel ts = matched l last.

(** A statement behind annotations: what [match_statement] does with it. *)
Lemma annotated_statement : forall k s rest ts an r1,
  annotations_phrase ts an r1 -> next k r1 ->
  first_of_statement k = true -> k <> tk_at ->
  (an = [] -> r1 = ts -> forall fuel, (length ts < fuel)%nat -> statement fuel ts = matched s rest) ->
  (an <> [] -> (length r1 < length ts)%nat ->
    forall stmt fuel, knows_statements stmt (length ts) -> (length ts < fuel)%nat ->
      match_annotated_statement stmt fuel an r1 = matched s rest) ->
  forall fuel, (length ts < fuel)%nat -> statement fuel ts = matched s rest.
Proof.
  intros k s rest ts an r1 A K F NA P1 P2 fuel L.
  destruct (annotations_first _ _ _ _ A K) as [[E1 E2]|[NE E]].
  - apply P1; assumption.
  - destruct fuel as [|fuel]; [lia|]. cbn [statement]. unfold statement_step.
    destruct (next_skip _ _ E) as (x & r & S1). rewrite S1.
    rewrite (match_sequence_complete _ _ _ A); [ | | exact NE].
    + cbn [matched bind_result]. apply P2; [exact NE | | apply knows_statement; lia | lia].
      destruct A as [ts | ts a r' l rest' A A']; [contradiction|].
      apply annotation_shorter in A. apply annotations_shorter in A'. lia.
    + eapply expect_next; [exact K|]. destruct k; try discriminate F; try reflexivity. contradiction.
Qed.

Lemma statement_complete :
  (forall ts s rest, statement_phrase lower ts s rest -> read_statement ts s rest) /\
  (forall an ts s rest, if_phrase lower an ts s rest -> read_if an ts s rest) /\
  (forall ts l rest, block_phrase lower ts l rest -> read_block ts l rest) /\
  (forall ts l rest, statements_phrase lower ts l rest -> read_statements ts l rest).
Proof.
  apply statement_induction.
  - intros ts an r1 s rest A P N.
    pose proof (let_first _ _ _ _ P) as K. eapply annotated_statement; [exact A | exact K | reflexivity | discriminate | | ].
    + intros -> -> fuel L. destruct fuel as [|fuel]; [lia|]. cbn [statement]. unfold statement_step.
      destruct (next_skip _ _ K) as (x & r & ->). apply let_complete. exact P.
    + intros _ _ stmt fuel _ _. unfold match_annotated_statement.
      destruct (next_skip _ _ K) as (x & r & ->). apply let_complete. exact P.
  - intros ts an r1 s rest A P N.
    pose proof (const_first _ _ _ _ _ P) as K. eapply annotated_statement; [exact A | exact K | reflexivity | discriminate | | ].
    + intros -> -> fuel L. destruct fuel as [|fuel]; [lia|]. cbn [statement]. unfold statement_step.
      destruct (next_skip _ _ K) as (x & r & ->). apply const_complete. exact P.
    + intros _ _ stmt fuel _ _. unfold match_annotated_statement.
      destruct (next_skip _ _ K) as (x & r & ->). apply const_complete. exact P.
  - intros ts s rest P N fuel L. destruct fuel as [|fuel]; [lia|]. cbn [statement]. unfold statement_step.
    destruct (next_skip _ _ (assertion_first _ _ _ _ P)) as (x & r & ->). apply assertion_complete. exact P.
  - intros ts an r1 s rest A P N.
    pose proof (assignment_first _ _ _ _ P) as K.
    eapply annotated_statement; [exact A | exact K | reflexivity | discriminate | | ].
    + intros -> -> fuel L. destruct fuel as [|fuel]; [lia|]. cbn [statement]. unfold statement_step.
      destruct (next_skip _ _ K) as (x & r & ->). unfold match_assignment_or_call.
      rewrite (peek_next _ _ _ K). cbn [is token_type_eqb token_type_index Z.eqb Pos.eqb].
      pose proof P as P'. destruct P' as [ts' y r2 r3 e r4 rest' I1 Q D S1].
      rewrite (peek_second_token _ _ _ _ _ I1), (peek_next _ _ _ (eats_next _ _ _ Q)).
      cbn [is token_type_eqb token_type_index Z.eqb Pos.eqb]. apply assignment_complete. exact P.
    + intros _ _ stmt fuel _ _. unfold match_annotated_statement.
      destruct (next_skip _ _ K) as (x & r & ->). apply assignment_complete. exact P.
  - intros ts name args an r1 rest D Q N fuel L. destruct fuel as [|fuel]; [lia|]. cbn [statement].
    unfold statement_step. pose proof (call_first _ _ _ D) as K.
    destruct (next_skip _ _ K) as (x & r & ->). unfold match_assignment_or_call.
    rewrite (peek_next _ _ _ K). cbn [is token_type_eqb token_type_index Z.eqb Pos.eqb].
    assert (C : exists nm r1 r2, token_then ts tk_identifier nm r1 /\ eats tk_left_parenthesis r1 r2)
      by (inversion D; subst; eauto).
    destruct C as (nm & r1' & r2' & T & P).
    rewrite (peek_second_token _ _ _ _ _ T), (peek_next _ _ _ (eats_next _ _ _ P)).
    cbn [is token_type_eqb token_type_index Z.eqb Pos.eqb].
    eapply call_statement_complete; eassumption.
  - intros ts r1 rest Q S1 N fuel L. destruct fuel as [|fuel]; [lia|]. cbn [statement].
    unfold statement_step. destruct (next_skip _ _ (eats_next _ _ _ Q)) as (x & r & ->).
    unfold match_break. eat Q gr_break_statement. eat S1 gr_break_statement. reflexivity.
  - intros ts r1 rest Q S1 N fuel L. destruct fuel as [|fuel]; [lia|]. cbn [statement].
    unfold statement_step. destruct (next_skip _ _ (eats_next _ _ _ Q)) as (x & r & ->).
    unfold match_continue. eat Q gr_continue_statement. eat S1 gr_continue_statement. reflexivity.
  - intros ts r1 rest Q S1 N fuel L. destruct fuel as [|fuel]; [lia|]. cbn [statement].
    unfold statement_step. destruct (next_skip _ _ (eats_next _ _ _ Q)) as (x & r & ->).
    unfold match_return. eat Q gr_return_statement. destruct (expect_eat _ _ _ S1) as (y & ->). reflexivity.
  - intros ts r1 e r2 rest Q D S1 N fuel L. destruct fuel as [|fuel]; [lia|]. cbn [statement].
    unfold statement_step. destruct (next_skip _ _ (eats_next _ _ _ Q)) as (x & r & ->).
    unfold match_return. eat Q gr_return_statement.
    assert (F : expect (is tk_semicolon) r1 = None).
    { eapply derive_not_first; [exact D|]. intros k. destruct k; intros H; try discriminate H; reflexivity. }
    rewrite F. rewrite (expression_complete _ _ _ tk_semicolon D); [ | eapply eats_next; exact S1 | reflexivity].
    cbn [matched bind_result]. eat S1 gr_return_statement. reflexivity.
  - intros ts an r1 s rest A P R N.
    pose proof (if_first _ _ _ _ P) as K. eapply annotated_statement; [exact A | exact K | reflexivity | discriminate | | ].
    + intros -> -> fuel L. destruct fuel as [|fuel]; [lia|]. cbn [statement]. unfold statement_step.
      destruct (next_skip _ _ K) as (x & r & ->). apply R; [exact N | apply knows_statement; lia | lia].
    + intros _ LE stmt fuel KN L. unfold match_annotated_statement.
      destruct (next_skip _ _ K) as (x & r & ->).
      apply R; [exact N | eapply knows_fewer; [exact KN | lia] | lia].
  - intros ts an r1 r2 c r3 b rest A Q D P R N.
    pose proof (eats_next _ _ _ Q) as K.
    assert (M : forall stmt fuel, knows_statements stmt (length r1) -> (length r1 < fuel)%nat ->
      match_while stmt fuel an r1 = matched (PWhile an c b) rest).
    { intros stmt fuel KN L. unfold match_while. eat Q gr_while_statement.
      rewrite (expression_complete _ _ _ tk_left_brace D); [ | eapply block_first; exact P | reflexivity].
      cbn [matched bind_result]. rewrite (R stmt fuel); [reflexivity | | ].
      - eapply knows_fewer; [exact KN|]. shorter lower. lia.
      - shorter lower. lia. }
    eapply annotated_statement; [exact A | exact K | reflexivity | discriminate | | ].
    + intros -> -> fuel L. destruct fuel as [|fuel]; [lia|]. cbn [statement]. unfold statement_step.
      destruct (next_skip _ _ K) as (x & r & ->). apply M; [apply knows_statement; lia | lia].
    + intros _ LE stmt fuel KN L. unfold match_annotated_statement.
      destruct (next_skip _ _ K) as (x & r & ->). apply M; [eapply knows_fewer; [exact KN | lia] | lia].
  - intros ts b rest P R N fuel L. destruct fuel as [|fuel]; [lia|]. cbn [statement].
    unfold statement_step. destruct (next_skip _ _ (block_first _ _ _ P)) as (x & r & ->).
    rewrite (R _ (S fuel)); [reflexivity | apply knows_statement; lia | lia].
  - intros an ts r1 c r2 b rest Q D P R N stmt fuel KN L. destruct fuel as [|fuel]; [lia|].
    cbn [match_if_statement]. eat Q gr_if_statement.
    rewrite (expression_complete _ _ _ tk_left_brace D); [ | eapply block_first; exact P | reflexivity].
    cbn [matched bind_result].
    rewrite (R stmt fuel); [ | eapply knows_fewer; [exact KN|]; shorter lower; lia | shorter lower; lia ].
    cbn [matched bind_result]. rewrite N. reflexivity.
  - intros an ts r1 c r2 b r3 r4 e rest Q D P R QE PE RE N stmt fuel KN L.
    destruct fuel as [|fuel]; [lia|].
    assert (L3 : (length r3 < length r2)%nat) by (eapply (proj1 (proj2 (proj2 statement_shorter))); exact P).
    cbn [match_if_statement]. eat Q gr_if_statement.
    rewrite (expression_complete _ _ _ tk_left_brace D); [ | eapply block_first; exact P | reflexivity].
    cbn [matched bind_result].
    rewrite (R stmt fuel); [ | eapply knows_fewer; [exact KN|]; shorter lower; lia | shorter lower; lia ].
    cbn [matched bind_result]. destruct (expect_eat _ _ _ QE) as (y & ->).
    rewrite (peek_next _ _ _ (block_first _ _ _ PE)). cbn [is token_type_eqb token_type_index Z.eqb Pos.eqb].
    rewrite (RE stmt fuel); [reflexivity | eapply knows_fewer; [exact KN|]; shorter lower; lia
      | shorter lower; lia ].
  - intros an ts r1 c r2 b r3 r4 an' r5 e rest Q D P R QE A AN PE RE N stmt fuel KN L.
    destruct AN as [AN|AN]; [discriminate AN|]. subst an'. inversion A; subst.
    destruct fuel as [|fuel]; [lia|].
    assert (L3 : (length r3 < length r2)%nat) by (eapply (proj1 (proj2 (proj2 statement_shorter))); exact P).
    cbn [match_if_statement]. eat Q gr_if_statement.
    rewrite (expression_complete _ _ _ tk_left_brace D); [ | eapply block_first; exact P | reflexivity].
    cbn [matched bind_result].
    rewrite (R stmt fuel); [ | eapply knows_fewer; [exact KN|]; shorter lower; lia | shorter lower; lia ].
    cbn [matched bind_result]. destruct (expect_eat _ _ _ QE) as (y & ->).
    rewrite (peek_next _ _ _ (if_first _ _ _ _ PE)). cbn [is token_type_eqb token_type_index Z.eqb Pos.eqb].
    rewrite (RE N stmt fuel); [reflexivity | eapply knows_fewer; [exact KN|]; shorter lower; lia
      | shorter lower; lia ].
  - intros ts r1 l r2 rest Q P R QE stmt fuel KN L. unfold match_block. eat Q gr_block_statement.
    apply R; [exact QE | eapply knows_fewer; [exact KN|]; shorter lower; lia | shorter lower; lia].
  - intros ts last Q stmt fuel KN L. destruct fuel as [|fuel]; [lia|]. cbn [block_statements].
    destruct (expect_eat _ _ _ Q) as (y & ->). reflexivity.
  - intros ts s r1 l rest P R P' R' last Q stmt fuel KN L. destruct fuel as [|fuel]; [lia|].
    cbn [block_statements].
    assert (L1 : (length r1 < length ts)%nat) by (eapply (proj1 statement_shorter); exact P).
    assert (B : expect (is tk_right_brace) ts = None).
    { destruct (statement_first _ _ _ P) as (k & K & F). eapply expect_next; [exact K|].
      destruct k; try discriminate F; reflexivity. }
    rewrite B.
    assert (N : expect (is tk_keyword_else) r1 = None).
    { destruct P' as [ts' | ts' s' r' l' rest' P' P''].
      - eapply expect_next; [eapply eats_next; exact Q | reflexivity].
      - destruct (statement_first _ _ _ P') as (k & K & F). eapply expect_next; [exact K|].
        destruct k; try discriminate F; reflexivity. }
    rewrite (KN ts s r1); [ | lia | apply R; exact N ]. cbn [matched bind_result].
    rewrite (R' last Q stmt fuel); [reflexivity | eapply knows_fewer; [exact KN | lia] | lia].
Qed.

(** ** Declarations *)

Lemma parameter_complete : forall ts p rest,
  parameter_phrase lower ts p rest -> match_parameter ts = matched p rest.
Proof.
  intros ts p rest H. unfold match_parameter. destruct H as [ts x r1 r2 t rest I1 Q D].
  tok I1. eat Q gr_parameter. rewrite (type_complete _ _ _ D). reflexivity.
Qed.

Lemma parameter_shorter : forall ts p rest, parameter_phrase lower ts p rest -> (length rest < length ts)%nat.
Proof. intros ts p rest H. destruct H. shorter lower. lia. Qed.

Lemma parameters_complete : forall ts l rest,
  parameters_phrase lower ts l rest -> expect (is tk_comma) rest = None ->
  forall fuel, (length ts < fuel)%nat -> parameter_sequence fuel ts = matched l rest.
Proof.
  induction 1 as [ts p rest P | ts p r1 r2 l rest P C L IH]; intros N fuel F;
    (destruct fuel as [|fuel]; [lia|]); cbn [parameter_sequence];
    rewrite (parameter_complete _ _ _ P); cbn [matched bind_result].
  - rewrite N. reflexivity.
  - destruct (expect_eat _ _ _ C) as (x & ->). rewrite IH; [reflexivity | exact N |].
    apply parameter_shorter in P. apply eats_shorter in C. lia.
Qed.

Lemma parameters_first : forall ts l rest, parameters_phrase lower ts l rest -> next tk_identifier ts.
Proof.
  intros ts l rest H. destruct H as [ts p rest P | ts p r1 r2 l rest P _ _];
    destruct P; eapply token_next; eassumption.
Qed.

Lemma requires_complete : forall ts e rest k,
  requires_phrase lower ts e rest -> next k rest -> bad_after n_expression k = false ->
  is tk_keyword_requires k = false ->
  optional_requires ts = matched e rest.
Proof.
  intros ts e rest k H K B R. unfold optional_requires. destruct H as [ts | ts r1 e rest Q D].
  - rewrite (expect_next _ _ _ K R). reflexivity.
  - destruct (expect_eat _ _ _ Q) as (x & ->). rewrite (expression_complete _ _ _ _ D K B). reflexivity.
Qed.

Lemma function_complete : forall an ts f rest,
  function_phrase lower an ts f rest -> match_function an ts = matched f rest.
Proof.
  intros an ts f rest H. unfold match_function.
  destruct H as [ts r1 name r2 r3 ps r4 r5 r6 t r7 req r8 body rest K I1 P PS Q A T R B].
  eat K gr_function_declaration. tok I1. eat P gr_function_declaration.
  assert (E : (if peek (is tk_right_parenthesis) r3 then matched [] r3
    else parameter_sequence (S (length r3)) r3) = matched ps r4).
  { destruct PS as [[-> ->]|PS].
    - rewrite (peek_next _ _ _ (eats_next _ _ _ Q)). reflexivity.
    - rewrite (peek_next _ _ _ (parameters_first _ _ _ PS)).
      cbn [is token_type_eqb token_type_index Z.eqb Pos.eqb].
      apply parameters_complete; [exact PS | | lia].
      eapply expect_next; [eapply eats_next; exact Q | reflexivity]. }
  match goal with |- bind_result ?m _ = _ => replace m with (matched ps r4) by (symmetry; exact E) end.
  cbn [matched bind_result]. eat Q gr_function_declaration. eat A gr_function_declaration.
  rewrite (type_complete _ _ _ T). cbn [matched bind_result].
  rewrite (requires_complete _ _ _ tk_left_brace R); [ | eapply block_first; exact B | reflexivity | reflexivity].
  cbn [matched bind_result].
  rewrite (proj1 (proj2 (proj2 statement_complete)) _ _ _ B); [reflexivity | apply knows_match_statement | lia].
Qed.

Lemma function_first : forall d an ts f rest, function_phrase d an ts f rest -> next tk_keyword_function ts.
Proof. intros d an ts f rest H. destruct H; eapply eats_next; eassumption. Qed.

Lemma declaration_complete : forall ts x rest,
  declaration_phrase lower ts x rest -> match_program_declaration ts = matched x rest.
Proof.
  intros ts x rest H. unfold match_program_declaration.
  destruct H as [ts an r1 s rest A P | ts an r1 f rest A P | ts s rest P].
  - pose proof (const_first _ _ _ _ _ P) as K.
    destruct (annotations_first _ _ _ _ A K) as [[-> ->]|[NE E]].
    + destruct (next_skip _ _ K) as (x & r & ->). unfold const_declaration.
      rewrite (const_complete _ _ _ _ P). reflexivity.
    + destruct (next_skip _ _ E) as (x & r & ->).
      rewrite (match_sequence_complete _ _ _ A); [ | eapply expect_next; [exact K | reflexivity] | exact NE].
      cbn [matched bind_result]. rewrite (peek_next _ _ _ K).
      cbn [is token_type_eqb token_type_index Z.eqb Pos.eqb]. unfold const_declaration.
      rewrite (const_complete _ _ _ _ P). reflexivity.
  - pose proof (function_first _ _ _ _ _ P) as K.
    destruct (annotations_first _ _ _ _ A K) as [[-> ->]|[NE E]].
    + destruct (next_skip _ _ K) as (x & r & ->). unfold function_declaration.
      rewrite (function_complete _ _ _ _ P). reflexivity.
    + destruct (next_skip _ _ E) as (x & r & ->).
      rewrite (match_sequence_complete _ _ _ A); [ | eapply expect_next; [exact K | reflexivity] | exact NE].
      cbn [matched bind_result]. rewrite !(peek_next _ _ _ K).
      cbn [is token_type_eqb token_type_index Z.eqb Pos.eqb]. unfold function_declaration.
      rewrite (function_complete _ _ _ _ P). reflexivity.
  - destruct (next_skip _ _ (assertion_first _ _ _ _ P)) as (x & r & ->).
    rewrite (assertion_complete _ _ _ P). reflexivity.
Qed.

Lemma parameters_shorter : forall ts l rest,
  parameters_phrase lower ts l rest -> (length rest < length ts)%nat.
Proof.
  induction 1 as [ts p rest P | ts p r1 r2 l rest P C L IH].
  - eapply parameter_shorter. exact P.
  - apply parameter_shorter in P. apply eats_shorter in C. lia.
Qed.

Lemma declaration_shorter : forall ts x rest,
  declaration_phrase lower ts x rest -> (length rest < length ts)%nat.
Proof.
  intros ts x rest H. destruct H as [ts an r1 s rest A P | ts an r1 f rest A P | ts s rest P].
  - apply (proj1 statement_shorter ts s rest). eapply st_const; eassumption.
  - apply annotations_shorter in A.
    destruct P as [ts' r1 name r2 r3 ps r4 r5 r6 t r7 req r8 body rest K I1 P PS Q AR T R B].
    assert (LP : (length r4 <= length r3)%nat).
    { destruct PS as [[_ ->]|PS]; [lia|]. apply parameters_shorter in PS. lia. }
    assert (LR : (length r8 <= length r7)%nat) by (destruct R; shorter lower; lia).
    apply (proj1 (proj2 (proj2 statement_shorter))) in B. shorter lower. lia.
  - apply (proj1 statement_shorter ts s rest). apply st_assertion. exact P.
Qed.

Lemma program_first : forall ts l, program_phrase lower ts l -> exists k, next k ts.
Proof.
  assert (A : forall ts an r1 k, annotations_phrase ts an r1 -> next k r1 -> exists k, next k ts).
  { intros ts an r1 k A K. destruct (annotations_first _ _ _ _ A K) as [[_ <-]|[_ E]]; eauto. }
  assert (F : forall ts x rest, declaration_phrase lower ts x rest -> exists k, next k ts).
  { intros ts x rest H. destruct H.
    - eapply A; [eassumption | eapply const_first; eassumption].
    - eapply A; [eassumption | eapply function_first; eassumption].
    - eexists. eapply assertion_first. eassumption. }
  intros ts l H. destruct H; eapply F; eassumption.
Qed.

Lemma declarations_complete : forall ts l,
  program_phrase lower ts l ->
  forall fuel, (length ts < fuel)%nat ->
    exists rest, program_declarations fuel ts = matched l rest.
Proof.
  induction 1 as [ts x rest D E | ts x r1 l D P IH]; intros fuel F;
    (destruct fuel as [|fuel]; [lia|]); cbn [program_declarations];
    rewrite (declaration_complete _ _ _ D); cbn [matched bind_result].
  - apply at_end_skip in E. rewrite E. eexists. reflexivity.
  - destruct (program_first _ _ P) as (k & K). destruct (next_skip _ _ K) as (y & r & ->).
    apply declaration_shorter in D. destruct (IH fuel) as (rest & ->); [lia|].
    exists rest. reflexivity.
Qed.

Lemma parse_complete : forall ts p, program_phrase lower ts p -> parse ts = Some (Ok p).
Proof.
  intros ts p H. unfold parse. destruct (declarations_complete _ _ H (S (length ts))) as (rest & ->).
  - lia.
  - reflexivity.
Qed.
