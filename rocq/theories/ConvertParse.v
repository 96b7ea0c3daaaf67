(** The trees that the parser builds can be converted, up to [>=]. *)
From Coq Require Import ZArith Ascii String List Bool Lia.
From Verif Require Import Prelude Text Types Ops Tables AbsOps Annotations Ast Parse GrammarSpec ParseComplete NameLookup Programs PrintSpec
  Convert ConvertSpec ConvertFacts.
Import ListNotations.
Open Scope list_scope.

Section Phrases.
Variable d : dialect.

(** What holds of every expression of a phrase. *)
Definition fine (p : pexpr) : Prop := every proper_operator p = true /\ every used_result p = true.
Definition fine_type (t : ptype) : Prop := Forall fine (type_expressions t).

Lemma mem_true op l : In op l -> existsb (token_type_eqb op) l = true.
Proof.
  intros H. apply existsb_exists. exists op. split; [exact H|]. destruct op; reflexivity.
Qed.
Lemma fine_forallb l : Forall fine l ->
  forallb (every proper_operator) l = true /\ forallb (every used_result) l = true.
Proof. intros H. rewrite Forall_forall in H. split; apply forallb_forall; intros x Hx; apply H; exact Hx. Qed.

Lemma fine_intro p : proper_operator p = true -> used_result p = true ->
  (match p with
   | PConversion e t => fine e /\ fine_type t
   | PIf a c b => fine a /\ fine c /\ fine b
   | PBinary _ a b => fine a /\ fine b
   | PPrefix _ e => fine e
   | PCall _ args _ _ => Forall fine args
   | PId _ | PLiteral _ _ => True
   end) -> fine p.
Proof.
  intros H1 H2 H. split; rewrite every_intro; rewrite ?H1, ?H2; cbn [andb];
    destruct p as [e t|a c b|op a b|op e|x args an st|x|x k]; auto;
    try (destruct H as [[A1 A2] B]; apply fine_forallb in B as [B1 B2]; rewrite ?A1, ?A2, ?B1, ?B2; reflexivity);
    try (destruct H as ([A1 A2] & [B1 B2] & [C1 C2]); rewrite ?A1, ?A2, ?B1, ?B2, ?C1, ?C2; reflexivity);
    try (destruct H as ([A1 A2] & [B1 B2]); rewrite ?A1, ?A2, ?B1, ?B2; reflexivity);
    try (apply H); apply fine_forallb in H; apply H.
Qed.

Lemma comparison_binary op : In op comparison_operators -> In op binary_operators.
Proof. intros H. unfold binary_operators. rewrite !in_app_iff. auto. Qed.
Lemma arithmetic_binary op : In op arithmetic_operators -> In op binary_operators.
Proof. intros H. unfold binary_operators. rewrite !in_app_iff. auto. Qed.

Lemma derive_fine :
  (forall n ts e rest, derive d n ts e rest -> fine e)
  /\ (forall ts l rest, derive_sequence d ts l rest -> Forall fine l)
  /\ (forall ts t rest, derive_type d ts t rest -> fine_type t).
Proof.
  apply derive_induction; intros; auto;
    try (apply fine_intro; [try reflexivity|reflexivity|auto]; apply mem_true;
         auto using comparison_binary, arithmetic_binary; fail);
    try (constructor; auto; fail).
Qed.

(** Statements. *)
Definition fine_stmt (s : pstmt) : Prop :=
  forallb (every proper_operator) (stmt_expressions s) = true /\ call_statements s = true.
Definition fine_stmts (l : list pstmt) : Prop :=
  forallb (every proper_operator) (flat_map stmt_expressions l) = true /\ forallb call_statements l = true.

Lemma fine_stmts_cons s l : fine_stmt s -> fine_stmts l -> fine_stmts (s :: l).
Proof.
  intros [A1 A2] [B1 B2]. unfold fine_stmts. cbn [flat_map forallb]. rewrite forallb_app, A1, A2, B1, B2. auto.
Qed.
Lemma fine_simple s : Forall fine (stmt_expressions s) ->
  call_statements s = forallb (every used_result) (stmt_expressions s) -> fine_stmt s.
Proof. intros H E. apply fine_forallb in H as [A B]. split; [exact A|congruence]. Qed.
Lemma fine_if an c b e : fine c -> fine_stmts b -> (forall s, e = Some s -> fine_stmt s) -> fine_stmt (PIf_Statement an c b e).
Proof.
  intros [C1 C2] [B1 B2] H. unfold fine_stmt. cbn [stmt_expressions call_statements forallb]. rewrite C1, C2, forallb_app, B1, B2.
  destruct e as [s|]; [|auto]. destruct (H s eq_refl) as [S1 S2]. rewrite S1, S2. auto.
Qed.
Lemma fine_while an c b : fine c -> fine_stmts b -> fine_stmt (PWhile an c b).
Proof.
  intros [C1 C2] [B1 B2]. unfold fine_stmt. cbn [stmt_expressions call_statements forallb]. rewrite C1, C2, B1, B2. auto.
Qed.

Lemma type_phrase_fine ts t rest : type_phrase d ts t rest -> Forall fine (option_expressions t).
Proof. intros H. inversion H; subst; [constructor|]. eapply derive_fine; eassumption. Qed.
Lemma initializer_fine ts e rest : initializer_phrase d ts e rest -> fine e.
Proof. intros (r & _ & H). eapply derive_fine; eassumption. Qed.
Lemma const_fine an ts s rest : const_phrase d an ts s rest -> fine_stmt s.
Proof.
  intros H. inversion H; subst. apply fine_simple; [|reflexivity]. apply Forall_app. split.
  - eapply type_phrase_fine; eassumption.
  - constructor; [|constructor]. eapply initializer_fine; eassumption.
Qed.
Lemma assertion_fine ts s rest : assertion_phrase d ts s rest -> fine_stmt s.
Proof.
  intros H. inversion H; subst. apply fine_simple; [|reflexivity]. constructor; [|constructor]. eapply derive_fine; eassumption.
Qed.

Lemma statement_fine :
  (forall ts s rest, statement_phrase d ts s rest -> fine_stmt s)
  /\ (forall an ts s rest, if_phrase d an ts s rest -> fine_stmt s)
  /\ (forall ts l rest, block_phrase d ts l rest -> fine_stmts l)
  /\ (forall ts l rest, statements_phrase d ts l rest -> fine_stmts l).
Proof.
  apply statement_induction; intros; auto.
  - match goal with H : let_phrase _ _ _ _ _ |- _ => inversion H; subst end; apply fine_simple; try reflexivity;
      apply Forall_app; split; try (constructor; fail).
    + eapply derive_fine; eassumption.
    + eapply type_phrase_fine; eassumption.
    + constructor; [|constructor]. eapply initializer_fine; eassumption.
  - eapply const_fine; eassumption.
  - eapply assertion_fine; eassumption.
  - match goal with H : assignment_phrase _ _ _ _ _ |- _ => inversion H; subst end. apply fine_simple; [|reflexivity].
    constructor; [|constructor]. eapply derive_fine; eassumption.
  - match goal with H : derive _ _ _ _ _ |- _ => apply derive_fine in H as [A B] end.
    rewrite every_intro in A, B. apply andb_prop in A as [_ A], B as [_ B]. split.
    + cbn [stmt_expressions forallb]. rewrite every_intro. cbn [proper_operator andb]. rewrite A. reflexivity.
    + cbn [call_statements andb]. exact B.
  - split; reflexivity.
  - split; reflexivity.
  - split; reflexivity.
  - apply fine_simple; [|reflexivity]. constructor; [|constructor]. eapply derive_fine; eassumption.
  - apply fine_while; [|assumption]. eapply derive_fine; eassumption.
  - apply fine_if; [eapply derive_fine; eassumption|assumption|discriminate].
  - apply fine_if; [eapply derive_fine; eassumption|assumption|]. intros s E. injection E as <-. assumption.
  - apply fine_if; [eapply derive_fine; eassumption|assumption|]. intros s E. injection E as <-. assumption.
  - split; reflexivity.
  - apply fine_stmts_cons; assumption.
Qed.

Lemma parameters_fine ts l rest : parameters_phrase d ts l rest ->
  Forall fine (flat_map (fun q => type_expressions (pp_type q)) l).
Proof.
  induction 1 as [ts p rest H|ts p r1 r2 l rest H _ _ IH]; inversion H; subst; cbn [flat_map pp_type]; apply Forall_app;
    (split; [eapply derive_fine; eassumption|]); [constructor|exact IH].
Qed.

Lemma function_fine an ts f rest : function_phrase d an ts f rest ->
  forallb (every proper_operator) (function_expressions f) = true /\ forallb call_statements (pf_body f) = true.
Proof.
  intros H. inversion H; subst. match goal with B : block_phrase _ _ _ _ |- _ => apply statement_fine in B as [B1 B2] end.
  split; [|exact B2]. unfold function_expressions. cbn [pf_parameters pf_return_type pf_requires pf_body].
  rewrite !forallb_app, B1, andb_true_r.
  assert (P : Forall fine (flat_map (fun q => type_expressions (pp_type q)) ps)).
  { match goal with P : optional_parameters _ _ _ _ |- _ => destruct P as [[-> _]|P] end; [constructor|].
    eapply parameters_fine; eassumption. }
  assert (R : Forall fine (match req with Some e => [e] | None => [] end)).
  { match goal with R : requires_phrase _ _ _ _ |- _ => inversion R; subst end; [constructor|].
    constructor; [|constructor]. eapply derive_fine; eassumption. }
  assert (T : Forall fine (type_expressions t)) by (eapply derive_fine; eassumption).
  apply fine_forallb in P as [-> _], R as [-> _], T as [-> _]. reflexivity.
Qed.

Definition fine_declaration (x : pdecl) : Prop :=
  forallb (every proper_operator) (declaration_expressions x) = true
  /\ match x with
     | PD_Function f => forallb call_statements (pf_body f) = true
     | PD_Statement s => (match s with PConst _ _ _ _ | PStatic_Assert _ => True | _ => False end)
     end.

Lemma declaration_fine ts x rest : declaration_phrase d ts x rest -> fine_declaration x.
Proof.
  intros H. inversion H; subst.
  - split; [eapply const_fine; eassumption|].
    match goal with C : const_phrase _ _ _ _ _ |- _ => inversion C; subst end. exact Logic.I.
  - eapply function_fine; eassumption.
  - split; [eapply assertion_fine; eassumption|].
    match goal with C : assertion_phrase _ _ _ _ |- _ => inversion C; subst end. exact Logic.I.
Qed.
Lemma program_fine ts p : program_phrase d ts p -> Forall fine_declaration p.
Proof.
  induction 1 as [ts x rest H _|ts x r1 l H _ IH]; (constructor; [eapply declaration_fine; eassumption|]); [constructor|exact IH].
Qed.
End Phrases.

Lemma fine_program p : Forall fine_declaration p -> forallb (every proper_operator) (program_expressions p) = true.
Proof.
  intros H. unfold program_expressions. rewrite forallb_flat. apply forallb_forall. intros x Hx.
  rewrite Forall_forall in H. apply H. exact Hx.
Qed.
