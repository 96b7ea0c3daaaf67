(** How the dialects of the grammar are related, and that the tokenizer's tokens are fit for the parser. *)
From Coq Require Import ZArith Ascii String List Bool Lia.
From Verif Require Import Prelude Text Literals LiteralsSpec LiteralsProofs Tables Tokenizer TokenizerSpec
  TokenizerProofs Annotations Ast Parse GrammarSpec ParseFacts ParseComplete ParseTotal.
Import ListNotations.
Open Scope string_scope.
Open Scope list_scope.
Open Scope Z_scope.

(** ** What follows a phrase is an end of the tokens *)

Lemma eats_ends : forall k ts rest, eats k ts rest -> ends true ts rest.
Proof. intros k ts rest (x & H). eapply token_ends. exact H. Qed.

Lemma arg_ends : forall ts a rest, annotation_arg ts a rest -> ends true ts rest.
Proof.
  intros ts a rest H. destruct H as [ts k x v rest T _ _ | ts key r1 r2 k x v rest T E T2 _ _].
  - eapply token_ends. exact T.
  - apply token_ends in T. apply eats_ends in E. apply token_ends in T2.
    eapply (ends_trans true true); [exact T|]. eapply (ends_trans true true); eassumption.
Qed.

Lemma args_ends : forall ts l rest, annotation_args ts l rest -> ends true ts rest.
Proof.
  induction 1 as [ts a rest H | ts a r1 r2 l rest H E A IH]; [eapply arg_ends; exact H|].
  apply arg_ends in H. apply eats_ends in E.
  eapply (ends_trans true true); [exact H|]. eapply (ends_trans true true); eassumption.
Qed.

Lemma argument_list_ends : forall ts l rest, argument_list ts l rest -> ends true ts rest.
Proof.
  intros ts l rest [? r1 ? A B | ? r1 ? r2 ? A B C].
  - apply eats_ends in A. apply eats_ends in B. eapply (ends_trans true true); eassumption.
  - apply eats_ends in A. apply args_ends in B. apply eats_ends in C.
    eapply (ends_trans true true); [exact A|]. eapply (ends_trans true true); eassumption.
Qed.

Lemma annotation_ends : forall ts a rest, annotation_phrase ts a rest -> ends true ts rest.
Proof.
  intros ts a rest [? r1 nm ? A B | ? r1 nm r2 args ? A B C].
  - apply eats_ends in A. apply token_ends in B. eapply (ends_trans true true); eassumption.
  - apply eats_ends in A. apply token_ends in B. apply argument_list_ends in C.
    eapply (ends_trans true true); [exact A|]. eapply (ends_trans true true); eassumption.
Qed.

Lemma annotations_ends : forall ts l rest, annotations_phrase ts l rest -> ends false ts rest.
Proof.
  induction 1 as [ts | ts a r1 l rest A B IH]; [apply ends_refl|]. apply annotation_ends in A.
  eapply ends_weaken. eapply (ends_trans true false); eassumption.
Qed.

Lemma ends_then : forall s a b c, ends true a b -> ends s b c -> ends true a c.
Proof. intros s a b c H1 H2. exact (ends_trans true s _ _ _ H1 H2). Qed.

Ltac known := repeat match goal with
  | H : token_then _ _ _ _ |- _ => apply token_ends in H
  | H : eats _ _ _ |- _ => apply eats_ends in H
  | H : annotations_phrase _ _ _ |- _ => apply annotations_ends in H
  end.
Lemma derive_ends : forall d,
  (forall n ts e rest, derive d n ts e rest -> ends true ts rest) /\
  (forall ts l rest, derive_sequence d ts l rest -> ends true ts rest) /\
  (forall ts t rest, derive_type d ts t rest -> ends true ts rest).
Proof.
  intros d. apply derive_induction; intros; known; try assumption;
    repeat match goal with
    | A : ends true ?x ?y, B : ends ?s ?y ?z |- ends true ?x ?z =>
        exact (ends_then _ _ _ _ A B)
    | A : ends true ?x ?y, B : ends ?s ?y ?z |- _ =>
        pose proof (ends_then _ _ _ _ A B); clear B
    end; assumption.
Qed.

(** ** Without comparisons there is nothing to choose *)

Definition no_comparison (ts : list lexeme) : Prop :=
  forall k x, In (k, x) ts -> ~ In k comparison_operators.

Lemma no_comparison_ends : forall s ts rest, ends s ts rest -> no_comparison ts -> no_comparison rest.
Proof. intros s ts rest (p & -> & _) H k x K. apply (H k x). apply in_or_app. right. exact K. Qed.

Lemma no_comparison_foreseen : forall ts, no_comparison ts -> foreseen ts false.
Proof.
  intros ts H. split; [discriminate|]. intros (b & op & x & a & -> & C & _).
  exfalso. apply (H op x); [|exact C]. apply in_or_app. right. left. reflexivity.
Qed.

Lemma no_comparison_token : forall ts k x rest,
  no_comparison ts -> token_then ts k x rest -> ~ In k comparison_operators.
Proof. intros ts k x rest H T. apply token_in in T. exact (H k x T). Qed.

Section Plain.
Variable d : dialect.
Hypothesis commas : commas_optional d = false.
Hypothesis elses : annotated_else d = false.

Ltac note_ends := repeat match goal with
  | H : token_then ?a _ _ ?b |- _ =>
      lazymatch goal with _ : ends true a b |- _ => fail | _ => pose proof (token_ends _ _ _ _ H) end
  | H : eats _ ?a ?b |- _ =>
      lazymatch goal with _ : ends true a b |- _ => fail | _ => pose proof (eats_ends _ _ _ H) end
  | H : annotations_phrase ?a _ ?b |- _ =>
      lazymatch goal with _ : ends _ a b |- _ => fail | _ => pose proof (annotations_ends _ _ _ H) end
  | H : derive d _ ?a _ ?b |- _ =>
      lazymatch goal with _ : ends true a b |- _ => fail
      | _ => pose proof (proj1 (derive_ends d) _ _ _ _ H) end
  | H : derive_sequence d ?a _ ?b |- _ =>
      lazymatch goal with _ : ends true a b |- _ => fail
      | _ => pose proof (proj1 (proj2 (derive_ends d)) _ _ _ H) end
  | H : derive_type d ?a _ ?b |- _ =>
      lazymatch goal with _ : ends true a b |- _ => fail
      | _ => pose proof (proj2 (proj2 (derive_ends d)) _ _ _ H) end
  end.
Ltac note_plain := note_ends; repeat match goal with
  | H : no_comparison ?a, E : ends _ ?a ?b |- _ =>
      lazymatch goal with _ : no_comparison b |- _ => fail
      | _ => pose proof (no_comparison_ends _ _ _ E H) end
  end;
  repeat match goal with
  | H : no_comparison ?a -> _, P : no_comparison ?a |- _ => specialize (H P)
  end.

Lemma derive_plain :
  (forall n ts e rest, derive d n ts e rest -> no_comparison ts -> derive lower n ts e rest) /\
  (forall ts l rest, derive_sequence d ts l rest -> no_comparison ts -> derive_sequence lower ts l rest) /\
  (forall ts t rest, derive_type d ts t rest -> no_comparison ts -> derive_type lower ts t rest).
Proof.
  apply derive_induction; intros; note_plain.
  all: try solve [econstructor; eassumption].
  - exfalso. match goal with T : token_then ?a _ _ _, P : no_comparison ?a |- _ =>
      eapply (no_comparison_token _ _ _ _ P T); assumption end.
  - apply d_operand; [apply no_comparison_foreseen|]; assumption.
  - eapply d_operation; [apply no_comparison_foreseen| | | |]; eassumption.
  - eapply d_literal; [eassumption|]. intuition.
  - rewrite commas in *. discriminate.
Qed.

Ltac down := note_plain; repeat match goal with
  | H : derive d _ ?a _ _, P : no_comparison ?a |- _ => apply (proj1 derive_plain) in H; [|exact P]
  | H : derive_type d ?a _ _, P : no_comparison ?a |- _ =>
      apply (proj2 (proj2 derive_plain)) in H; [|exact P]
  end.

Lemma type_plain : forall ts t rest, type_phrase d ts t rest ->
  (no_comparison ts -> type_phrase lower ts t rest) /\ ends false ts rest.
Proof.
  intros ts t rest [? | ? r1 ? ? E D]; split; intros; down; try (econstructor; eassumption).
  - apply ends_refl.
  - eapply ends_weaken, ends_then; eassumption.
Qed.

Lemma initializer_plain : forall ts e rest, initializer_phrase d ts e rest ->
  (no_comparison ts -> initializer_phrase lower ts e rest) /\ ends true ts rest.
Proof.
  intros ts t rest (r1 & E & D); split; intros; down; [exists r1; split; assumption|].
  eapply ends_then; eassumption.
Qed.

Ltac deep := note_plain; repeat match goal with
  | H : type_phrase d ?a _ ?b |- _ =>
      let T := fresh in let E := fresh in destruct (type_plain _ _ _ H) as [T E]; clear H
  | H : initializer_phrase d ?a _ ?b |- _ =>
      let T := fresh in let E := fresh in destruct (initializer_plain _ _ _ H) as [T E]; clear H
  end; down.
Ltac joined := repeat match goal with
    | A : ends true ?x ?y, B : ends ?s ?y ?z |- ends true ?x ?z => exact (ends_then _ _ _ _ A B)
    | A : ends true ?x ?y, B : ends ?s ?y ?z |- _ => pose proof (ends_then _ _ _ _ A B); clear B
    end; try assumption.

Lemma let_plain : forall an ts s rest, let_phrase d an ts s rest ->
  (no_comparison ts -> let_phrase lower an ts s rest) /\ ends true ts rest.
Proof.
  intros an ts s rest H. destruct H; split; intros; deep; try (econstructor; eassumption); joined.
Qed.

Lemma const_plain : forall an ts s rest, const_phrase d an ts s rest ->
  (no_comparison ts -> const_phrase lower an ts s rest) /\ ends true ts rest.
Proof.
  intros an ts s rest H. destruct H; split; intros; deep; try (econstructor; eassumption); joined.
Qed.

Lemma assertion_plain : forall ts s rest, assertion_phrase d ts s rest ->
  (no_comparison ts -> assertion_phrase lower ts s rest) /\ ends true ts rest.
Proof.
  intros ts s rest H. destruct H; split; intros; deep; try (econstructor; eassumption); joined.
Qed.

Lemma assignment_plain : forall an ts s rest, assignment_phrase d an ts s rest ->
  (no_comparison ts -> assignment_phrase lower an ts s rest) /\ ends true ts rest.
Proof.
  intros an ts s rest H. destruct H; split; intros; deep; try (econstructor; eassumption); joined.
Qed.

Ltac phrases := repeat match goal with
  | H : let_phrase d _ ?a _ ?b |- _ =>
      let T := fresh in let E := fresh in destruct (let_plain _ _ _ _ H) as [T E]; clear H
  | H : const_phrase d _ ?a _ ?b |- _ =>
      let T := fresh in let E := fresh in destruct (const_plain _ _ _ _ H) as [T E]; clear H
  | H : assertion_phrase d ?a _ ?b |- _ =>
      let T := fresh in let E := fresh in destruct (assertion_plain _ _ _ H) as [T E]; clear H
  | H : assignment_phrase d _ ?a _ ?b |- _ =>
      let T := fresh in let E := fresh in destruct (assignment_plain _ _ _ _ H) as [T E]; clear H
  | H : (no_comparison _ -> _) /\ ends _ _ _ |- _ =>
      let T := fresh in let E := fresh in destruct H as [T E]
  end; deep.
Ltac joined0 := try (apply (ends_weaken true); solve [joined]);
  repeat match goal with
    | A : ends false ?x ?y, B : ends true ?y ?z |- ends true ?x ?z => exact (ends_trans false true _ _ _ A B)
    | A : ends true ?x ?y, B : ends ?s ?y ?z |- _ => pose proof (ends_then _ _ _ _ A B); clear B
    end; joined.

Lemma statement_plain :
  (forall ts s rest, statement_phrase d ts s rest ->
    (no_comparison ts -> statement_phrase lower ts s rest) /\ ends true ts rest) /\
  (forall an ts s rest, if_phrase d an ts s rest ->
    (no_comparison ts -> if_phrase lower an ts s rest) /\ ends true ts rest) /\
  (forall ts s rest, block_phrase d ts s rest ->
    (no_comparison ts -> block_phrase lower ts s rest) /\ ends true ts rest) /\
  (forall ts s rest, statements_phrase d ts s rest ->
    (no_comparison ts -> statements_phrase lower ts s rest) /\ ends false ts rest).
Proof.
  apply statement_induction; intros; split; intros; phrases.
  all: try solve [econstructor; eassumption].
  all: try solve [apply ends_refl].
  all: try solve [joined].
  all: try solve [joined0].
  eapply if_else_if; try eassumption. cbn. rewrite elses in *. intuition.
Qed.

Lemma parameter_plain : forall ts p rest, parameter_phrase d ts p rest ->
  (no_comparison ts -> parameter_phrase lower ts p rest) /\ ends true ts rest.
Proof.
  intros ts p rest H. destruct H; split; intros; phrases; try (econstructor; eassumption); joined.
Qed.

Lemma parameters_plain : forall ts p rest, parameters_phrase d ts p rest ->
  (no_comparison ts -> parameters_phrase lower ts p rest) /\ ends true ts rest.
Proof.
  induction 1 as [ts p rest H | ts p r1 r2 l rest H E HL [IH IE]]; destruct (parameter_plain _ _ _ H) as [P PE];
    split; intros; phrases; try (econstructor; eassumption); joined.
Qed.

Lemma optional_plain : forall ts p rest, optional_parameters d ts p rest ->
  (no_comparison ts -> optional_parameters lower ts p rest) /\ ends false ts rest.
Proof.
  intros ts p rest [[-> ->]|H].
  - split; [intros _; left; split; reflexivity | apply ends_refl].
  - destruct (parameters_plain _ _ _ H) as [P PE]. split; [intros Q; right; exact (P Q)|].
    apply (ends_weaken true). exact PE.
Qed.

Lemma requires_plain : forall ts r rest, requires_phrase d ts r rest ->
  (no_comparison ts -> requires_phrase lower ts r rest) /\ ends false ts rest.
Proof.
  intros ts r rest H. destruct H; split; intros; phrases; try solve [econstructor; eassumption].
  - apply ends_refl.
  - joined0.
Qed.

Lemma function_plain : forall an ts f rest, function_phrase d an ts f rest ->
  (no_comparison ts -> function_phrase lower an ts f rest) /\ ends true ts rest.
Proof.
  intros an ts f rest H. destruct H as [ts r1 nm r2 r3 ps r4 r5 r6 t r7 rq r8 b rest A B C D E F G H I1].
  apply optional_plain in D. apply requires_plain in H. apply statement_plain in I1.
  split; intros; phrases; try (econstructor; eassumption); joined.
Qed.

Lemma declaration_plain : forall ts x rest, declaration_phrase d ts x rest ->
  (no_comparison ts -> declaration_phrase lower ts x rest) /\ ends true ts rest.
Proof.
  intros ts x rest H. destruct H as [ts an r1 s rest A B | ts an r1 f rest A B | ts s rest A];
    try apply function_plain in B; split; intros; phrases; try (econstructor; eassumption); joined0.
Qed.

Lemma program_plain : forall ts p, program_phrase d ts p -> no_comparison ts -> program_phrase lower ts p.
Proof.
  induction 1 as [ts x rest D E | ts x r1 l D P IH]; intros C; apply declaration_plain in D; phrases;
    econstructor; eassumption.
Qed.

End Plain.

(** ** What the documented grammar has not *)

(** Arguments next to each other need a comma. *)
Lemma documented_sequence : forall d ts a b l rest,
  commas_optional d = false -> derive_sequence d ts (a :: b :: l) rest -> exists x, In (tk_comma, x) ts.
Proof.
  intros d ts a b l rest D H. inversion H as [| ? ? r1 r2 ? ? E (x & C) |]; [|congruence].
  apply (proj1 (derive_ends d)) in E. destruct E as (p & -> & _). apply token_in in C.
  exists x. apply in_or_app. right. exact C.
Qed.

Lemma documented_call : forall d n ts e rest,
  commas_optional d = false -> derive d n ts e rest ->
  forall f a b l an st, e = PCall f (a :: b :: l) an st -> exists x, In (tk_comma, x) ts.
Proof.
  intros d n ts e rest D H.
  assert (W : forall s u v, ends s u v -> (exists x, In (tk_comma, x) v) -> exists x, In (tk_comma, x) u).
  { intros s u v (p & -> & _) (x & X). exists x. apply in_or_app. right. exact X. }
  induction H; intros f' a' b' l' an' st' E; try discriminate E; try solve [eapply IHderive; exact E].
  - injection E as -> -> -> _. match goal with S : derive_sequence _ _ _ _ |- _ =>
      apply (documented_sequence _ _ _ _ _ _ D) in S; rename S into Q end.
    eapply (W true); [eapply token_ends; eassumption|]. eapply (W true); [eapply eats_ends; eassumption|].
    exact Q.
  - eapply (W true); [eapply eats_ends; eassumption|]. eapply IHderive. exact E.
Qed.

(** String literals are no expressions. *)
Lemma documented_string : forall d n ts e rest,
  string_expressions d = false -> derive d n ts e rest -> forall x, e <> PLiteral x tk_string_literal.
Proof.
  intros d n ts e rest D H. induction H; intros x' E; try discriminate E; try solve [eapply IHderive; exact E].
  injection E as -> ->. match goal with L : _ \/ _ |- _ => destruct L as [L|[L _]]; [|congruence];
    cbn in L; intuition discriminate end.
Qed.

(** ** The tokenizer's string literals have their quotes *)

Lemma lexemes_quoted : forall source tokens,
  tokenize source = Some (Ok tokens) -> quoted (lexemes source tokens).
Proof.
  intros source tokens H x X. unfold lexemes in X. apply in_map_iff in X. destruct X as (t & E & T).
  injection E as K <-. pose proof (loop_tokens _ _ _ _ H) as F. rewrite Forall_forall in F.
  destruct (F t T) as [R _]. rewrite K in R. cbn in R.
  pose proof (string_literal_spec (skipn (tok_begin t) source)) as S0. rewrite R in S0.
  destruct S0 as (body & r & S1 & _ & ->). unfold tok_begin in S1. rewrite S1.
  rewrite firstn_length. cbn [length]. rewrite app_length. cbn [length]. lia.
Qed.
