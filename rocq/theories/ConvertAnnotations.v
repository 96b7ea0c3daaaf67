(** The annotations of parsed programs are resolved or rejected: the walk over them never fails otherwise. *)
From Coq Require Import ZArith Ascii String List Bool Lia.
From Verif Require Import Prelude Text Literals LiteralsSpec LiteralsProofs Types Ops Tables Tokenizer TokenizerSpec TokenizerProofs AbsOps
  Annotations AnnotationsSpec AnnotationsProofs AnnotationsProps Ast Parse GrammarSpec ParseComplete Convert ConvertSpec ConvertFacts AnnotationWalkSpec.
Import ListNotations.
Open Scope string_scope.
Open Scope list_scope.

(** Every literal is one that annotations can read. *)
Definition well_lexed (ts : list lexeme) : Prop :=
  forall k x v key, In (k, x) ts -> In k literals -> argument_text k x v -> well_formed (AA key v k).

Lemma lexemes_well_lexed source tokens : tokenize source = Some (Ok tokens) -> well_lexed (lexemes source tokens).
Proof.
  intros H k x v key X K A. unfold lexemes in X. apply in_map_iff in X. destruct X as (t & E & T).
  injection E as E1 E2. pose proof (loop_tokens _ _ _ _ H) as F. rewrite Forall_forall in F.
  destruct (F t T) as [R _]. rewrite E1 in R. unfold tok_begin in R.
  set (s := skipn (begin (tok_pos t)) source) in *.
  assert (I : forall l, match_integer_literal s = LM lm_ok (tok_length t) l -> k = literal_token l -> well_formed (AA key v k)).
  { intros l M ->. apply match_integer_literal_ok in M as (p & ds & rest & S1 & S2 & S3 & _). unfold argument_text in A.
    assert (V : v = p). { destruct l; cbn in A; subst v x s; rewrite S1, <- S2, firstn_app, Nat.sub_diag, firstn_all, firstn_O, app_nil_r; reflexivity. }
    subst v. econstructor. exact S3. }
  cbn in K. destruct K as [<-|[<-|[<-|[<-|[<-|[<-|[<-|[]]]]]]]].
  - exact (I binary_lit R eq_refl).
  - exact (I octal_lit R eq_refl).
  - exact (I decimal_lit R eq_refl).
  - exact (I hexadecimal_lit R eq_refl).
  - constructor.
  - constructor.
  - cbn in R, A. destruct A as (c & d & A). pose proof (string_literal_spec s) as S0. rewrite R in S0.
    destruct S0 as (body & r & S1 & S2 & S3). constructor.
    assert (Q : x = ch_quote :: body ++ [ch_quote]).
    { rewrite <- E2, S1, S3. replace (length body + 2)%nat with (Datatypes.S (length body + 1)) by lia.
      cbn [firstn]. f_equal. rewrite firstn_app. replace (length body + 1 - length body)%nat with 1%nat by lia.
      rewrite firstn_all2 by lia. reflexivity. }
    rewrite Q in A. injection A as _ A. apply app_inj_tail in A as [<- _]. exact S2.
Qed.

Lemma bind_defined {E A B} (m : outcome E A) (k : A -> outcome E B) : defined m -> (forall a, defined (k a)) -> defined (bind m k).
Proof. destruct m; cbn; auto. Qed.

(** One annotation, and all in order. *)
Definition check (x : carried) : outcome annotation_error unit := let* _ := do_resolve (fst x) [snd x] in Ok tt.
Fixpoint check_all (l : list carried) : outcome annotation_error unit :=
  match l with [] => Ok tt | x :: rest => let* _ := check x in check_all rest end.

Lemma check_all_app a b : check_all (a ++ b) = let* _ := check_all a in check_all b.
Proof.
  induction a as [|x a IH]; [reflexivity|]. cbn [app check_all]. rewrite IH.
  destruct (check x) as [[]| | |]; reflexivity.
Qed.
Lemma check_flat_map {A} (f : A -> list carried) l :
  check_all (flat_map f l) = resolve_list (fun a => check_all (f a)) l.
Proof.
  induction l as [|a l IH]; [reflexivity|]. cbn [flat_map resolve_list]. rewrite check_all_app, IH. reflexivity.
Qed.
Lemma resolve_list_ext {A} (f g : A -> outcome annotation_error unit) l : Forall (fun a => f a = g a) l ->
  resolve_list f l = resolve_list g l.
Proof. induction 1 as [|a l H _ IH]; cbn [resolve_list]; [reflexivity|]. rewrite H, IH. reflexivity. Qed.

Lemma check_on {B} c l (k : outcome annotation_error B) : (let* _ := do_resolve c l in k) = let* _ := check_all (on c l) in k.
Proof.
  revert k. induction l as [|n l IH]; intros k; [reflexivity|].
  cbn [on map check_all]. unfold check at 1. cbn [fst snd do_resolve].
  destruct (annotation_type_by_name (pn_name n)) as [t|]; [|reflexivity].
  destruct (negb _); [reflexivity|]. destruct (process_arguments t (pn_arguments n)) as [vs| | |]; try reflexivity. cbn [bind].
  fold (on c l). rewrite <- (IH k). destruct (do_resolve c l); reflexivity.
Qed.

Ltac by_list l := cbn [resolve_expr resolve_stmt];
  match goal with |- ?a = ?b => match a with context [?f l] => match b with context [resolve_list ?g l] =>
    assert (f l = resolve_list g l) as ->; [|reflexivity];
    induction l as [|z m IH]; [reflexivity|]; cbn [resolve_list]; rewrite <- IH; reflexivity end end end.

Lemma resolve_call_list x args an b :
  resolve_expr (PCall x args an b) = let* _ := do_resolve co_function_call_expression an in resolve_list resolve_expr args.
Proof. by_list args. Qed.

Lemma resolve_expr_checks : forall e, resolve_expr e = check_all (carried_expr e).
Proof.
  assert (T : forall t, match t with PType _ (Some w) => resolve_expr w = check_all (carried_expr w) | _ => True end ->
      resolve_type t = check_all (carried_type t)).
  { intros [k [w|]] H; [exact H|reflexivity]. }
  induction e using pexpr_induction.
  - cbn [resolve_expr carried_expr]. rewrite check_all_app, <- IHe. destruct (resolve_expr e); try reflexivity. cbn [bind]. apply T. assumption.
  - cbn [resolve_expr carried_expr]. rewrite !check_all_app, <- IHe1, <- IHe2, <- IHe3. reflexivity.
  - cbn [resolve_expr carried_expr]. rewrite check_all_app, <- IHe1, <- IHe2. reflexivity.
  - cbn [resolve_expr carried_expr]. exact IHe.
  - rewrite resolve_call_list, check_on. cbn [carried_expr]. rewrite check_all_app, check_flat_map.
    rewrite (resolve_list_ext resolve_expr (fun a => check_all (carried_expr a))) by assumption. reflexivity.
  - reflexivity.
  - reflexivity.
Qed.
Lemma resolve_type_checks : forall t, resolve_type t = check_all (carried_type t).
Proof. intros [k [w|]]; [apply resolve_expr_checks|reflexivity]. Qed.
Lemma resolve_option_checks {A} (f : A -> outcome annotation_error unit) g : (forall a, f a = check_all (g a)) ->
  forall x, resolve_option f x = check_all (carried_option g x).
Proof. intros H [a|]; [apply H|reflexivity]. Qed.

Lemma resolve_if an c l e : resolve_stmt (PIf_Statement an c l e) =
  let* _ := do_resolve co_if_statement an in let* _ := resolve_expr c in let* _ := resolve_list resolve_stmt l in
  resolve_option resolve_stmt e.
Proof. by_list l. Qed.
Lemma resolve_while an c l : resolve_stmt (PWhile an c l) =
  let* _ := do_resolve co_while_statement an in let* _ := resolve_expr c in resolve_list resolve_stmt l.
Proof. by_list l. Qed.
Lemma resolve_block l : resolve_stmt (PBlock l) = resolve_list resolve_stmt l.
Proof. by_list l. Qed.

Lemma bind_same {E A B} (m : outcome E A) (k k' : A -> outcome E B) : (forall a, k a = k' a) -> bind m k = bind m k'.
Proof. intros H. destruct m; cbn; auto. Qed.

Lemma resolve_statements_checks l : Forall (fun s => resolve_stmt s = check_all (carried_stmt s)) l ->
  resolve_list resolve_stmt l = check_all (flat_map carried_stmt l).
Proof. intros H. rewrite check_flat_map. apply resolve_list_ext. exact H. Qed.

Lemma resolve_stmt_checks : forall s, resolve_stmt s = check_all (carried_stmt s).
Proof.
  pose proof (resolve_option_checks _ _ resolve_type_checks) as T.
  pose proof (resolve_option_checks _ _ resolve_expr_checks) as E.
  induction s using pstmt_induction; rewrite ?resolve_if, ?resolve_while, ?resolve_block; cbn [carried_stmt resolve_option];
    rewrite ?check_all_app, <- ?resolve_statements_checks, <- ?resolve_expr_checks, <- ?T, <- ?E by assumption;
    rewrite <- ?check_on; try reflexivity.
  rewrite <- IHs. reflexivity.
Qed.

Lemma resolve_function_checks f : resolve_function f = check_all (carried_function f).
Proof.
  unfold resolve_function, carried_function. rewrite check_on, !check_all_app, !check_flat_map.
  apply bind_same. intros _. rewrite (resolve_list_ext (fun p => resolve_type (pp_type p)) (fun p => check_all (carried_type (pp_type p))))
    by (apply Forall_forall; intros p _; apply resolve_type_checks).
  apply bind_same. intros _. rewrite resolve_type_checks. apply bind_same. intros _.
  rewrite (resolve_option_checks _ _ resolve_expr_checks). apply bind_same. intros _.
  apply resolve_list_ext. apply Forall_forall. intros s _. apply resolve_stmt_checks.
Qed.

(** The walk checks the annotations of the program in order. *)
Lemma resolve_annotations_checks p : resolve_annotations p = check_all (annotations_in p).
Proof.
  unfold resolve_annotations, annotations_in. rewrite check_flat_map. apply resolve_list_ext. apply Forall_forall.
  intros [f|s] _; [apply resolve_function_checks|apply resolve_stmt_checks].
Qed.

(** What the check of one annotation finds. *)
Lemma check_spec : forall x, literal_arguments x ->
  match check x with
  | Ok _ => valid x
  | Err e => invalid x e
  | Abort | UB => False
  end.
Proof.
  intros [c a] W. unfold literal_arguments in W. cbn [snd] in W. unfold check. cbn [fst snd do_resolve]. destruct (annotation_type_by_name (pn_name a)) as [t|] eqn:En.
  - apply type_by_name_spec in En. destruct (annotation_type_applicable_to t c) eqn:Ea; cbn [negb].
    + apply applicable_spec in Ea. destruct (process_arguments t (pn_arguments a)) as [vs|e| |] eqn:Ep; cbn [bind].
      * destruct (C41_accepted t _ vs W Ep) as (slots & A & B & C). exists t, slots, vs. auto.
      * eapply invalid_arguments; [exact En|exact Ea|]. apply C41_rejected; assumption.
      * pose proof (C41_total t _ W) as D. rewrite Ep in D. exact D.
      * pose proof (C41_total t _ W) as D. rewrite Ep in D. exact D.
    + cbn [bind]. eapply invalid_place; [exact En|]. intros B. cbn [fst] in B. apply applicable_spec in B. congruence.
  - cbn [bind]. apply invalid_name. intros t E. apply type_by_name_spec in E. cbn [snd] in E. congruence.
Qed.

Lemma check_complete : forall x, literal_arguments x -> lower_case_arguments x -> valid x -> check x = Ok tt.
Proof.
  intros [c a] W L (t & slots & vs & En & Eb & B & S & R). unfold check. cbn [fst snd do_resolve] in *.
  apply type_by_name_spec in En. rewrite En. apply applicable_spec in Eb. rewrite Eb. cbn [negb].
  rewrite (C41_accepted_if t (pn_arguments a) slots vs W L B S R). reflexivity.
Qed.

Lemma check_all_spec : forall l, Forall literal_arguments l ->
  match check_all l with
  | Ok _ => Forall valid l
  | Err e => exists before x after, l = before ++ x :: after /\ Forall valid before /\ invalid x e
  | Abort | UB => False
  end.
Proof.
  induction 1 as [|x l W _ IH]; cbn [check_all]; [constructor|]. pose proof (check_spec x W) as S.
  destruct (check x) as [[]|e| |]; cbn [bind]; [|exists [], x, l; auto|exact S|exact S].
  destruct (check_all l) as [[]|e| |]; [auto| |exact IH|exact IH].
  destruct IH as (before & y & after & -> & A & B). exists (x :: before), y, after. auto.
Qed.

Section Walk.
Variable d : dialect.
Variable all : list lexeme.
Hypothesis lexed : well_lexed all.

Lemma token_in ts k x rest : token_then ts k x rest -> incl ts all -> In (k, x) all /\ incl rest all.
Proof.
  induction 1 as [k x ts _|c x ts k y rest _ _ IH]; intros H.
  - split; [apply H; left; reflexivity|]. intros z Z. apply H. right. exact Z.
  - apply IH. intros z Z. apply H. right. exact Z.
Qed.
Lemma eats_in k ts rest : eats k ts rest -> incl ts all -> incl rest all.
Proof. intros [x H]. apply (token_in _ _ _ _ H). Qed.

Ltac walk :=
  repeat match goal with
  | H : token_then ?ts _ _ _, I : incl ?ts all |- _ => apply token_in in H; [destruct H|exact I]
  | H : eats _ ?ts _, I : incl ?ts all |- _ => apply eats_in in H; [|exact I]
  | H : incl ?ts all -> _, I : incl ?ts all |- _ => specialize (H I)
  | H : _ /\ _ |- _ => destruct H
  end.

Lemma arg_in ts a rest : annotation_arg ts a rest -> incl ts all -> well_formed a /\ incl rest all.
Proof. intros H I. inversion H; subst; walk; split; eauto. Qed.
Lemma args_in ts l rest : annotation_args ts l rest -> incl ts all -> Forall well_formed l /\ incl rest all.
Proof.
  induction 1 as [ts a rest H|ts a r1 r2 l rest H E _ IH]; intros I; apply arg_in in H as [W I1]; auto.
  walk. auto.
Qed.
Lemma argument_list_in ts l rest : argument_list ts l rest -> incl ts all -> Forall well_formed l /\ incl rest all.
Proof.
  intros H I. inversion H; subst; walk; [auto|].
  match goal with A : annotation_args _ _ _ |- _ => apply args_in in A as [A B]; [|assumption] end. walk. auto.
Qed.
Lemma annotation_in ts a rest : annotation_phrase ts a rest -> incl ts all -> Forall well_formed (pn_arguments a) /\ incl rest all.
Proof.
  intros H I. inversion H; subst; walk; [cbn; auto|].
  match goal with A : argument_list _ _ _ |- _ => apply argument_list_in in A as [A B]; [|assumption] end. walk. auto.
Qed.
Lemma annotation_list_in ts l rest : annotations_phrase ts l rest -> incl ts all ->
  (forall c, Forall literal_arguments (on c l)) /\ incl rest all.
Proof.
  intros H I. enough (Forall (fun n => Forall well_formed (pn_arguments n)) l /\ incl rest all) as [A B]
    by (split; [intros c; apply Forall_map; exact A|exact B]).
  induction H as [ts|ts a r1 l rest H _ IH]; [auto|]. apply annotation_in in H as [A B]; [|exact I].
  destruct (IH B). auto.
Qed.

Ltac walk_more :=
  repeat (walk; match goal with
  | H : annotations_phrase ?ts _ _, I : incl ?ts all |- _ => apply annotation_list_in in H; [destruct H|exact I]
  end); walk.

Notation fine := (Forall literal_arguments).
Lemma fine_app a b : fine a -> fine b -> fine (a ++ b).
Proof. intros. apply Forall_app. auto. Qed.
Ltac finish := repeat (apply fine_app); auto; try constructor.

Lemma derive_resolves :
  (forall n ts e rest, derive d n ts e rest -> incl ts all -> fine (carried_expr e) /\ incl rest all)
  /\ (forall ts l rest, derive_sequence d ts l rest -> incl ts all -> fine (flat_map carried_expr l) /\ incl rest all)
  /\ (forall ts t rest, derive_type d ts t rest -> incl ts all -> fine (carried_type t) /\ incl rest all).
Proof.
  apply derive_induction; intros; walk_more; cbn [carried_expr flat_map carried_type];
    (split; [|assumption]); finish.
Qed.

Lemma expression_in n ts e rest : derive d n ts e rest -> incl ts all -> fine (carried_expr e) /\ incl rest all.
Proof. apply derive_resolves. Qed.
Lemma type_in ts t rest : derive_type d ts t rest -> incl ts all -> fine (carried_type t) /\ incl rest all.
Proof. apply derive_resolves. Qed.

Ltac walk_all :=
  repeat (walk_more; match goal with
  | H : derive d _ ?ts _ _, I : incl ?ts all |- _ => apply expression_in in H; [destruct H|exact I]
  | H : derive_type d ?ts _ _, I : incl ?ts all |- _ => apply type_in in H; [destruct H|exact I]
  end); walk_more.
Lemma type_phrase_in ts t rest : type_phrase d ts t rest -> incl ts all -> fine (carried_option carried_type t) /\ incl rest all.
Proof. intros H I. inversion H; subst; walk_all; split; cbn [carried_option]; finish. Qed.
Lemma initializer_in ts e rest : initializer_phrase d ts e rest -> incl ts all -> fine (carried_expr e) /\ incl rest all.
Proof. intros (r & H1 & H2) I. walk_all. auto. Qed.

Ltac walk_full :=
  repeat (walk_all; match goal with
  | H : type_phrase d ?ts _ _, I : incl ?ts all |- _ => apply type_phrase_in in H; [destruct H|exact I]
  | H : initializer_phrase d ?ts _ _, I : incl ?ts all |- _ => apply initializer_in in H; [destruct H|exact I]
  end); walk_all.

Lemma let_in an ts s rest : let_phrase d an ts s rest -> (forall c, fine (on c an)) -> incl ts all ->
  fine (carried_stmt s) /\ incl rest all.
Proof. intros H A I. inversion H; subst; walk_full; (split; [cbn [carried_stmt carried_option]; finish|assumption]). Qed.
Lemma const_in an ts s rest : const_phrase d an ts s rest -> (forall c, fine (on c an)) -> incl ts all ->
  fine (carried_stmt s) /\ incl rest all.
Proof. intros H A I. inversion H; subst; walk_full; (split; [cbn [carried_stmt carried_option]; finish|assumption]). Qed.
Lemma assignment_in an ts s rest : assignment_phrase d an ts s rest -> (forall c, fine (on c an)) -> incl ts all ->
  fine (carried_stmt s) /\ incl rest all.
Proof. intros H A I. inversion H; subst; walk_full; (split; [cbn [carried_stmt carried_option]; finish|assumption]). Qed.
Lemma assertion_in ts s rest : assertion_phrase d ts s rest -> incl ts all ->
  fine (carried_stmt s) /\ incl rest all.
Proof. intros H I. inversion H; subst; walk_full; (split; [cbn [carried_stmt carried_option]; finish|assumption]). Qed.

Lemma statement_resolves :
  (forall ts s rest, statement_phrase d ts s rest -> incl ts all -> fine (carried_stmt s) /\ incl rest all)
  /\ (forall an ts s rest, if_phrase d an ts s rest -> (forall c, fine (on c an)) -> incl ts all ->
      fine (carried_stmt s) /\ incl rest all)
  /\ (forall ts l rest, block_phrase d ts l rest -> incl ts all -> fine (flat_map carried_stmt l) /\ incl rest all)
  /\ (forall ts l rest, statements_phrase d ts l rest -> incl ts all -> fine (flat_map carried_stmt l) /\ incl rest all).
Proof.
  apply statement_induction; intros; walk_full;
    repeat match goal with
    | H : (forall c, fine (on c ?an)) -> _, A : forall c, fine (on c ?an) |- _ => specialize (H A); walk_full
    end;
    cbn [carried_stmt carried_option flat_map];
    try (split; [finish; fail|assumption]; fail).
  - eapply let_in; eassumption.
  - eapply const_in; eassumption.
  - eapply assertion_in; eassumption.
  - eapply assignment_in; eassumption.
  - cbn. auto.
Qed.

Lemma parameters_in ts l rest : parameters_phrase d ts l rest -> incl ts all ->
  fine (flat_map (fun p => carried_type (pp_type p)) l) /\ incl rest all.
Proof.
  induction 1 as [ts p rest H|ts p r1 r2 l rest H E _ IH]; intros I; inversion H; subst; walk_full;
    (split; [cbn [flat_map pp_type]; finish|assumption]).
Qed.

Lemma function_in an ts f rest : function_phrase d an ts f rest -> (forall c, fine (on c an)) -> incl ts all ->
  fine (carried_function f) /\ incl rest all.
Proof.
  intros H A I. inversion H; subst. walk_full.
  match goal with P : optional_parameters _ _ _ _ |- _ => destruct P as [[-> ->]|P]; [|apply parameters_in in P as [P1 P2]; [|assumption]] end;
    walk_full;
    (match goal with R : requires_phrase _ _ _ _ |- _ => inversion R; subst; walk_full end);
    (match goal with B : block_phrase _ _ _ _ |- _ => apply (proj1 (proj2 (proj2 statement_resolves))) in B as [B1 B2]; [|assumption] end);
    (split; [|assumption]); unfold carried_function;
    cbn [pf_annotations pf_parameters pf_return_type pf_requires pf_body flat_map carried_option]; finish.
Qed.

Lemma declaration_in ts x rest : declaration_phrase d ts x rest -> incl ts all ->
  fine (carried_declaration x) /\ incl rest all.
Proof.
  intros H I. inversion H; subst; walk_full; [eapply const_in; eassumption|eapply function_in; eassumption|eapply assertion_in; eassumption].
Qed.
Lemma program_in ts p : program_phrase d ts p -> incl ts all -> fine (annotations_in p).
Proof.
  unfold annotations_in.
  induction 1 as [ts x rest H _|ts x r1 l H _ IH]; intros I; apply declaration_in in H as [H J]; auto;
    cbn [flat_map]; finish.
Qed.
End Walk.

