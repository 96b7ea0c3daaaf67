(** What the printed tree of a parsed program tells: proofs. *)
From Coq Require Import ZArith Ascii String List Bool Lia.
From Verif Require Import Prelude Text Types Tables Ast Annotations Parse GrammarSpec ParseComplete PrintSpec ConvertSpec ConvertFacts
  ProgramTree ProgramTreeSpec.
Import ListNotations.
Open Scope string_scope.
Open Scope list_scope.
Open Scope nat_scope.

(** * Equal views *)
Lemma view_inj : forall k k' w w' l l', View k w l = View k' w' l' -> k = k' /\ w = w' /\ l = l'.
Proof. intros. injection H. auto. Qed.
Lemma part_inj : forall (r r' : text) (a b : option view) l l', (r, a) :: l = (r', b) :: l' -> a = b /\ l = l'.
Proof. intros. injection H. auto. Qed.
Lemma some_inj : forall A (a b : A), Some a = Some b -> a = b.
Proof. congruence. Qed.
Lemma last_inj : forall A (l l' : list A) x y, l ++ [x] = l' ++ [y] -> l = l' /\ x = y.
Proof. intros. apply app_inj_tail. assumption. Qed.

Lemma list_told : forall A B (f : A -> view) (g : A -> B) (ok : A -> Prop) role l l',
  Forall (fun a => forall b, ok a -> ok b -> f a = f b -> g a = g b) l -> Forall ok l -> Forall ok l' ->
  map (fun a => has role (f a)) l = map (fun a => has role (f a)) l' -> map g l = map g l'.
Proof.
  intros A B f g ok role. induction l as [|a l IH]; intros [|b l'] T P Q E; cbn [map] in E; try discriminate E; [reflexivity|].
  unfold has in E at 1 2. apply part_inj in E as [E1 E2]. apply some_inj in E1.
  inversion T; inversion P; inversion Q; subst. cbn [map]. f_equal; auto.
Qed.

Lemma argument_told : forall a b, view_argument a = view_argument b -> nameless_argument a = nameless_argument b.
Proof. intros a b E. unfold nameless_argument. rewrite E. reflexivity. Qed.
Lemma annotation_told : forall a b, view_annotation a = view_annotation b ->
  PAnn [] (map nameless_argument (pn_arguments a)) = PAnn [] (map nameless_argument (pn_arguments b)).
Proof.
  intros a b E. unfold view_annotation in E. apply view_inj in E as (_ & _ & E). f_equal.
  eapply (list_told _ _ view_argument nameless_argument (fun _ => True)); [| | |exact E]; apply Forall_forall; auto.
  intros x _ y _ _. apply argument_told.
Qed.
Lemma annotations_told : forall a b, view_annotations a = view_annotations b -> nameless_annotations a = nameless_annotations b.
Proof.
  intros [|a l] [|b m] E; try discriminate E; [reflexivity|]. unfold view_annotations in E. apply some_inj in E.
  apply view_inj in E as (_ & _ & E). unfold nameless_annotations.
  eapply (list_told _ _ view_annotation _ (fun _ => True)); [| | |exact E]; apply Forall_forall; auto.
  intros x _ y _ _. apply annotation_told.
Qed.

Lemma operator_told : forall l a b, l = binary_operators \/ l = unary_operators -> existsb (token_type_eqb a) l = true ->
  existsb (token_type_eqb b) l = true -> operator_word a = operator_word b -> a = b.
Proof.
  intros l a b [->| ->] A B E; destruct a; try discriminate A; destruct b; try discriminate B; try reflexivity; discriminate E.
Qed.
Lemma type_told : forall a b, type_word a = type_word b -> a = b.
Proof. intros a b E. destruct a, b; solve [reflexivity | discriminate E]. Qed.

Definition proper (e : pexpr) : Prop := every proper_operator e = true.
Definition proper_type (t : ptype) : Prop := forallb (every proper_operator) (type_expressions t) = true.
Definition expr_told (a : pexpr) : Prop := forall b, proper a -> proper b -> view_expr a = view_expr b -> nameless_expr a = nameless_expr b.

Lemma type_told_of : forall t, P_type expr_told t -> forall u, proper_type t -> proper_type u -> view_type t = view_type u ->
  nameless_type t = nameless_type u.
Proof.
  intros [k [e|]] H [k' [e'|]] P Q E; cbn [view_type] in E; apply view_inj in E as (_ & W & E); apply part_inj in E as [E _];
    apply type_told in W; subst k'; try discriminate E; [|reflexivity].
  apply some_inj in E. unfold proper_type in P, Q. cbn [type_expressions forallb] in P, Q. rewrite andb_true_r in P, Q.
  cbn [nameless_type]. f_equal. f_equal. apply H; assumption.
Qed.

Ltac parts E := unfold has in E;
  repeat match type of E with
  | (_, _) :: _ = _ :: _ => let X := fresh "X" in apply part_inj in E as [X E]; try apply some_inj in X
  end.
Ltac opens P := unfold proper in P; rewrite every_intro in P; cbn [proper_operator] in P;
  repeat match goal with H : (_ && _)%bool = true |- _ => apply andb_prop in H; destruct H end.
Lemma forallb_proper : forall l, forallb (every proper_operator) l = true -> Forall proper l.
Proof. intros l H. apply Forall_forall. rewrite forallb_forall in H. exact H. Qed.

Lemma exprs_told : forall a, expr_told a.
Proof.
  induction a using pexpr_induction; intros b P Q E; destruct b; cbn [view_expr] in E; apply view_inj in E as (K & W & E);
    try discriminate K; clear K; opens P; opens Q; parts E; cbn [nameless_expr].
  - f_equal; [auto|]. eapply type_told_of; eassumption.
  - f_equal; auto.
  - f_equal; auto. eapply operator_told; [|eassumption..]. auto.
  - f_equal; auto. eapply operator_told; [|eassumption..]. auto.
  - apply last_inj in E as [E1 E2]. injection E2 as E2. apply annotations_told in E2. subst. rewrite E2. f_equal.
    eapply (list_told _ _ view_expr nameless_expr proper); [| | |exact E1]; auto using forallb_proper.
  - congruence.
  - congruence.
Qed.
Lemma types_told : forall t u, proper_type t -> proper_type u -> view_type t = view_type u -> nameless_type t = nameless_type u.
Proof. intros t. apply type_told_of. destruct t as [k [e|]]; cbn; [apply exprs_told | exact Logic.I]. Qed.

Lemma option_type_told : forall t u, forallb (every proper_operator) (option_expressions t) = true ->
  forallb (every proper_operator) (option_expressions u) = true ->
  option_map view_type t = option_map view_type u -> option_map nameless_type t = option_map nameless_type u.
Proof.
  intros [t|] [u|] P Q E; try discriminate E; [|reflexivity]. cbn [option_map] in *. apply some_inj in E. f_equal. apply types_told; assumption.
Qed.
Lemma option_expr_told : forall t u, forallb (every proper_operator) (match t with Some e => [e] | None => [] end) = true ->
  forallb (every proper_operator) (match u with Some e => [e] | None => [] end) = true ->
  option_map view_expr t = option_map view_expr u -> option_map nameless_expr t = option_map nameless_expr u.
Proof.
  intros [t|] [u|] P Q E; try discriminate E; [|reflexivity]. cbn [option_map forallb] in *. apply some_inj in E. f_equal.
  apply exprs_told; [| |exact E]; unfold proper; [destruct (every proper_operator t)|destruct (every proper_operator u)]; auto.
Qed.

(** * Statements *)
Definition proper_stmt (s : pstmt) : Prop := forallb (every proper_operator) (stmt_expressions s) = true.
Definition stmt_told (a : pstmt) : Prop := forall b, proper_stmt a -> proper_stmt b -> view_stmt a = view_stmt b -> nameless_stmt a = nameless_stmt b.

Lemma proper_flat : forall A (f : A -> list pexpr) l, forallb (every proper_operator) (flat_map f l) = true ->
  Forall (fun a => forallb (every proper_operator) (f a) = true) l.
Proof.
  intros A f. induction l as [|a l IH]; intros H; constructor; cbn [flat_map] in H; rewrite forallb_app in H;
    apply andb_prop in H; destruct H; auto.
Qed.
Lemma block_told : forall l l', Forall stmt_told l -> forallb (every proper_operator) (flat_map stmt_expressions l) = true ->
  forallb (every proper_operator) (flat_map stmt_expressions l') = true ->
  View (str "Block_Statement") (str "{") (map (fun s1 => has "" (view_stmt s1)) l) =
  View (str "Block_Statement") (str "{") (map (fun s1 => has "" (view_stmt s1)) l') ->
  map nameless_stmt l = map nameless_stmt l'.
Proof.
  intros l l' T P Q E. apply view_inj in E as (_ & _ & E).
  eapply (list_told _ _ view_stmt nameless_stmt proper_stmt); [exact T| | |exact E]; apply (proper_flat pstmt); assumption.
Qed.

Ltac stmt_opens P := unfold proper_stmt in P; cbn [stmt_expressions forallb] in P; rewrite ?forallb_app in P;
  cbn [forallb] in P;
  repeat match goal with H : (_ && _)%bool = true |- _ => apply andb_prop in H; destruct H end.

Lemma stmts_told : forall a, stmt_told a.
Proof.
  induction a using pstmt_induction; intros s P Q E; destruct s;
    try (destruct e; cbn [view_stmt view_expr may_have] in E; apply view_inj in E as (K & _ & _); discriminate K);
    try (destruct e0; cbn [view_stmt view_expr may_have] in E; apply view_inj in E as (K & _ & _); discriminate K);
    try (cbn [view_stmt may_have] in E; apply view_inj in E as (K & _ & _); discriminate K).
  all: stmt_opens P; stmt_opens Q; cbn [view_stmt] in E; unfold may_have in E.
  all: try (apply view_inj in E as (_ & W & E); parts E; match type of E with [] = [] => clear E | _ => idtac end).
  all: cbn [nameless_stmt]; try reflexivity.
  all: repeat match goal with X : view_annotations _ = view_annotations _ |- _ => apply annotations_told in X end.
  - f_equal; auto using option_type_told. apply exprs_told; assumption.
  - f_equal; auto using option_type_told, option_expr_told.
  - f_equal. apply exprs_told; assumption.
  - destruct else_node; [discriminate|]. f_equal; auto using block_told. apply exprs_told; assumption.
  - destruct else_node; [|discriminate]. f_equal; auto using block_told; [apply exprs_told; assumption|].
    match goal with X : Some _ = Some _ |- _ => apply some_inj in X end. f_equal. auto.
  - f_equal; auto using block_told. apply exprs_told; assumption.
  - f_equal; auto using option_expr_told.
  - f_equal; auto. apply exprs_told; assumption.
  - f_equal. apply block_told; auto. f_equal. exact E.
  - f_equal. apply exprs_told; assumption.
Qed.

(** * Programs *)
Lemma parameter_told : forall a b, proper_type (pp_type a) -> proper_type (pp_type b) -> view_parameter a = view_parameter b ->
  PParam (pp_name a) (nameless_type (pp_type a)) = PParam (pp_name b) (nameless_type (pp_type b)).
Proof.
  intros a b P Q E. unfold view_parameter in E. apply view_inj in E as (_ & -> & E). parts E. f_equal. apply types_told; assumption.
Qed.
Lemma parameters_told : forall a b, Forall (fun q => proper_type (pp_type q)) a -> Forall (fun q => proper_type (pp_type q)) b ->
  view_parameters a = view_parameters b ->
  map (fun q => PParam (pp_name q) (nameless_type (pp_type q))) a = map (fun q => PParam (pp_name q) (nameless_type (pp_type q))) b.
Proof.
  intros a b P Q E. unfold view_parameters in E. destruct (rev a) eqn:A, (rev b) eqn:B; try discriminate E.
  - apply (f_equal (@rev _)) in A, B. rewrite rev_involutive in A, B. subst. reflexivity.
  - apply some_inj in E. apply view_inj in E as (_ & _ & E).
    eapply (list_told _ _ view_parameter _ (fun q => proper_type (pp_type q))); [|exact P|exact Q|exact E].
    apply Forall_forall. intros x _. apply parameter_told.
Qed.

Definition proper_decl (d : pdecl) : Prop := forallb (every proper_operator) (declaration_expressions d) = true.
Lemma decls_told : forall a b, proper_decl a -> proper_decl b -> view_decl a = view_decl b -> nameless_decl a = nameless_decl b.
Proof.
  intros [f|s] [g|t] P Q E; unfold proper_decl in P, Q; cbn [declaration_expressions view_decl] in P, Q, E.
  - unfold function_expressions in P, Q. rewrite !forallb_app in P, Q.
    repeat match goal with H : (_ && _)%bool = true |- _ => apply andb_prop in H; destruct H end.
    apply view_inj in E as (_ & _ & E). unfold may_have in E. parts E. cbn [nameless_decl]. f_equal. f_equal.
    + apply annotations_told. assumption.
    + apply parameters_told; [apply (proper_flat pparameter)..|]; assumption.
    + apply types_told; assumption.
    + apply option_expr_told; assumption.
    + apply block_told; auto. apply Forall_forall. intros x _. apply stmts_told.
  - destruct t; try destruct e; apply view_inj in E as (K & _ & _); discriminate K.
  - destruct s; try destruct e; apply view_inj in E as (K & _ & _); discriminate K.
  - cbn [nameless_decl]. f_equal. apply stmts_told; assumption.
Qed.
Lemma programs_told : forall p q, forallb (every proper_operator) (program_expressions p) = true ->
  forallb (every proper_operator) (program_expressions q) = true -> view_program p = view_program q ->
  map nameless_decl p = map nameless_decl q.
Proof.
  intros p q P Q E. unfold view_program in E. apply view_inj in E as (_ & _ & E).
  eapply (list_told _ _ view_decl nameless_decl proper_decl); [|apply (proper_flat pdecl), P|apply (proper_flat pdecl), Q|exact E].
  apply Forall_forall. intros x _ y. apply decls_told.
Qed.

(** * Lines *)
Definition part_line (x : part) : Prop := match x with (_, None) => True | (_, Some z) => one_line z end.
Definition line (w : text) : Prop := ~ In "010"%char w.
Lemma one_line_view : forall k w l, line w -> Forall part_line l -> one_line (View k w l).
Proof.
  intros k w l W F. split; [exact W|]. induction F as [|[r [z|]] l H _ IH]; [exact Logic.I|split; assumption|exact IH].
Qed.
Lemma line_word : forall v, one_line v -> line (word_of v).
Proof. intros [k w l] [H _]. exact H. Qed.
Lemma list_lines : forall A (f : A -> view) role l, Forall (fun a => one_line (f a)) l -> Forall part_line (map (fun a => has role (f a)) l).
Proof. intros A f role l H. induction H; cbn [map]; constructor; assumption. Qed.
Lemma option_line : forall A role (f : A -> view) x, match x with Some a => one_line (f a) | None => True end -> part_line (may_have role f x).
Proof. intros A role f [a|] H; exact H. Qed.

Ltac fixed := let N := fresh in intros N; cbn in N; repeat (destruct N as [N|N]; [discriminate N|]); exact N.
Lemma operator_line : forall k, line (operator_word k).
Proof. intros k. destruct k; fixed. Qed.
Lemma type_line : forall k, line (type_word k).
Proof. intros k. destruct k; fixed. Qed.

Section Walk.
Variable d : dialect.
Variable all : list lexeme.
Hypothesis lines : on_lines all.

Lemma token_line ts k x rest : token_then ts k x rest -> incl ts all -> line x /\ incl rest all.
Proof.
  induction 1 as [k x ts N|c x ts k y rest _ _ IH]; intros H.
  - split; [|intros z Z; apply H; right; exact Z]. intros L. apply N.
    destruct (lines k x (H _ (or_introl eq_refl)) L) as [->| ->]; cbn; auto.
  - apply IH. intros z Z. apply H. right. exact Z.
Qed.
Lemma eats_line k ts rest : eats k ts rest -> incl ts all -> incl rest all.
Proof. intros [x H]. apply (token_line _ _ _ _ H). Qed.

Ltac walk :=
  repeat match goal with
  | H : token_then ?ts _ _ _, I : incl ?ts all |- _ => apply token_line in H; [destruct H|exact I]
  | H : eats _ ?ts _, I : incl ?ts all |- _ => apply eats_line in H; [|exact I]
  | H : incl ?ts all -> _, I : incl ?ts all |- _ => specialize (H I)
  | H : _ /\ _ |- _ => destruct H
  end.

Lemma argument_value k x v : argument_text k x v -> line x -> line v.
Proof.
  unfold argument_text. destruct (token_type_eqb k tk_string_literal).
  - intros (c & e & ->) L N. apply L. right. apply in_or_app. left. exact N.
  - intros ->. auto.
Qed.
Lemma argument_view key v k : line key -> line v -> one_line (view_argument (AA key v k)).
Proof.
  intros K V. apply one_line_view; [|constructor]. cbn [aa_key aa_value aa_value_type]. destruct (text_eqb key []); [|exact K].
  destruct k; try exact V. intros N. apply in_app_or in N as [N|N]; [revert N; fixed|].
  apply in_app_or in N as [N|N]; [exact (V N)|revert N; fixed].
Qed.
Lemma arg_line ts a rest : annotation_arg ts a rest -> incl ts all -> one_line (view_argument a) /\ incl rest all.
Proof.
  intros H I. inversion H; subst; walk; (split; [|assumption]); apply argument_view; eauto using argument_value. fixed.
Qed.
Definition args_lined (l : list annotation_argument) : Prop := Forall (fun a => one_line (view_argument a)) l.
Lemma args_line ts l rest : annotation_args ts l rest -> incl ts all -> args_lined l /\ incl rest all.
Proof.
  unfold args_lined. induction 1 as [ts a rest H|ts a r1 r2 l rest H E _ IH]; intros I; apply arg_line in H as [W I1]; auto.
  walk. auto.
Qed.
Lemma argument_list_line ts l rest : argument_list ts l rest -> incl ts all -> args_lined l /\ incl rest all.
Proof.
  intros H I. inversion H; subst; walk; [split; [constructor|assumption]|].
  match goal with A : annotation_args _ _ _ |- _ => apply args_line in A as [A B]; [|assumption] end. walk. auto.
Qed.
Lemma annotation_line ts a rest : annotation_phrase ts a rest -> incl ts all -> one_line (view_annotation a) /\ incl rest all.
Proof.
  intros H I. unfold view_annotation. inversion H; subst; walk.
  - split; [|assumption]. apply one_line_view; [fixed|constructor].
  - match goal with A : argument_list _ _ _ |- _ => apply argument_list_line in A as [A B]; [|assumption] end. walk. split; [|assumption].
    apply one_line_view; [fixed|]. apply list_lines. assumption.
Qed.
Definition lined (l : list parsed_annotation) : Prop := forall r : text, part_line (r, view_annotations l).
Lemma annotations_line ts l rest : annotations_phrase ts l rest -> incl ts all -> lined l /\ incl rest all.
Proof.
  intros H I. enough (Forall (fun a => one_line (view_annotation a)) l /\ incl rest all) as [A B].
  { split; [|exact B]. intros r. destruct l as [|a l]; [exact Logic.I|]. apply one_line_view; [fixed|]. apply list_lines. exact A. }
  induction H as [ts|ts a r1 l rest H _ IH]; [auto|]. apply annotation_line in H as [A B]; [|exact I].
  destruct (IH B). auto.
Qed.

Ltac walk_more :=
  repeat (walk; match goal with
  | H : annotations_phrase ?ts _ _, I : incl ?ts all |- _ => apply annotations_line in H; [destruct H|exact I]
  end); walk.

Lemma derive_lines :
  (forall n ts e rest, derive d n ts e rest -> incl ts all -> one_line (view_expr e) /\ incl rest all)
  /\ (forall ts l rest, derive_sequence d ts l rest -> incl ts all -> Forall (fun e => one_line (view_expr e)) l /\ incl rest all)
  /\ (forall ts t rest, derive_type d ts t rest -> incl ts all -> one_line (view_type t) /\ incl rest all).
Proof.
  apply derive_induction; intros; walk_more; (split; [|assumption]); try assumption; try (constructor; auto; fail);
    cbn [view_expr view_type];
    try (apply one_line_view; [auto using operator_line, type_line, line_word|]);
    try (apply Forall_app; split; [apply list_lines; assumption|]);
    repeat constructor; try assumption; try (match goal with L : lined _ |- _ => apply L end).
Qed.

Lemma expression_line n ts e rest : derive d n ts e rest -> incl ts all -> one_line (view_expr e) /\ incl rest all.
Proof. apply derive_lines. Qed.
Lemma derive_type_line ts t rest : derive_type d ts t rest -> incl ts all -> one_line (view_type t) /\ incl rest all.
Proof. apply derive_lines. Qed.

Ltac walk_all :=
  repeat (walk_more; match goal with
  | H : derive d _ ?ts _ _, I : incl ?ts all |- _ => apply expression_line in H; [destruct H|exact I]
  | H : derive_type d ?ts _ _, I : incl ?ts all |- _ => apply derive_type_line in H; [destruct H|exact I]
  end); walk_more.
Lemma type_phrase_line ts t rest : type_phrase d ts t rest -> incl ts all ->
  match t with Some u => one_line (view_type u) | None => True end /\ incl rest all.
Proof. intros H I. inversion H; subst; walk_all; auto. Qed.
Lemma initializer_line ts e rest : initializer_phrase d ts e rest -> incl ts all -> one_line (view_expr e) /\ incl rest all.
Proof. intros (r & H1 & H2) I. walk_all. auto. Qed.

Ltac walk_full :=
  repeat (walk_all; match goal with
  | H : type_phrase d ?ts _ _, I : incl ?ts all |- _ => apply type_phrase_line in H; [destruct H|exact I]
  | H : initializer_phrase d ?ts _ _, I : incl ?ts all |- _ => apply initializer_line in H; [destruct H|exact I]
  end); walk_all.

Definition stmt_line (s : pstmt) : Prop := one_line (view_stmt s).
Lemma block_line l : Forall stmt_line l -> one_line (View (str "Block_Statement") (str "{") (map (fun s1 => has "" (view_stmt s1)) l)).
Proof. intros H. apply one_line_view; [fixed|]. apply list_lines. exact H. Qed.

Ltac build := unfold stmt_line; cbn [view_stmt]; apply one_line_view;
  [first [assumption | fixed]
  | repeat first [apply Forall_nil | apply Forall_cons];
    first [ match goal with L : lined ?a |- part_line (_, view_annotations ?a) => apply L end
          | apply option_line; assumption | apply option_line; exact Logic.I | assumption | apply block_line; assumption | exact Logic.I | idtac]].

Lemma let_line an ts s rest : let_phrase d an ts s rest -> lined an -> incl ts all -> stmt_line s /\ incl rest all.
Proof. intros H A I. inversion H; subst; walk_full; (split; [build|assumption]). Qed.
Lemma const_line an ts s rest : const_phrase d an ts s rest -> lined an -> incl ts all -> stmt_line s /\ incl rest all.
Proof. intros H A I. inversion H; subst; walk_full; (split; [build|assumption]). Qed.
Lemma assignment_line an ts s rest : assignment_phrase d an ts s rest -> lined an -> incl ts all -> stmt_line s /\ incl rest all.
Proof. intros H A I. inversion H; subst; walk_full; (split; [build|assumption]). Qed.
Lemma assertion_line ts s rest : assertion_phrase d ts s rest -> incl ts all -> stmt_line s /\ incl rest all.
Proof. intros H I. inversion H; subst; walk_full; (split; [build|assumption]). Qed.

Lemma statement_lines :
  (forall ts s rest, statement_phrase d ts s rest -> incl ts all -> stmt_line s /\ incl rest all)
  /\ (forall an ts s rest, if_phrase d an ts s rest -> lined an -> incl ts all -> stmt_line s /\ incl rest all)
  /\ (forall ts l rest, block_phrase d ts l rest -> incl ts all -> Forall stmt_line l /\ incl rest all)
  /\ (forall ts l rest, statements_phrase d ts l rest -> incl ts all -> Forall stmt_line l /\ incl rest all).
Proof.
  apply statement_induction; intros; walk_full;
    repeat match goal with
    | H : lined ?an -> _, A : lined ?an |- _ => specialize (H A); walk_full
    end;
    try (split; [build; fail|assumption]; fail);
    try (split; [constructor; assumption|assumption]; fail).
  - eapply let_line; eassumption.
  - eapply const_line; eassumption.
  - eapply assertion_line; eassumption.
  - eapply assignment_line; eassumption.
  - split; assumption.
  - split; assumption.
  - split; [apply block_line|]; assumption.
  - split; assumption.
Qed.

Lemma parameters_line ts l rest : parameters_phrase d ts l rest -> incl ts all ->
  Forall (fun q => one_line (view_parameter q)) l /\ incl rest all.
Proof.
  induction 1 as [ts p rest H|ts p r1 r2 l rest H E _ IH]; intros I; inversion H; subst; walk_full;
    (split; [|assumption]); constructor; auto; (apply one_line_view; [assumption|]); constructor; [assumption|constructor|assumption|constructor].
Qed.
Lemma parameters_part l r : Forall (fun q => one_line (view_parameter q)) l -> part_line (r, view_parameters l).
Proof.
  intros H. unfold view_parameters. destruct (rev l) as [|q m] eqn:R; [exact Logic.I|]. apply one_line_view; [|apply list_lines, H].
  assert (Q : In q l) by (apply in_rev; rewrite R; left; reflexivity). rewrite Forall_forall in H. apply H in Q. apply line_word in Q. exact Q.
Qed.

Lemma function_line an ts f rest : function_phrase d an ts f rest -> lined an -> incl ts all ->
  one_line (view_decl (PD_Function f)) /\ incl rest all.
Proof.
  intros H A I. inversion H; subst. walk_full.
  match goal with P : optional_parameters _ _ ?l _ |- _ =>
    assert (P0 : Forall (fun q => one_line (view_parameter q)) l /\ incl r4 all)
      by (destruct P as [[-> ->]|P]; [split; [constructor|assumption]|apply parameters_line in P; assumption]); clear P end.
  destruct P0 as (P1 & P2). walk_full.
  (match goal with R : requires_phrase _ _ _ _ |- _ => inversion R; subst; walk_full end);
    (match goal with B : block_phrase _ _ _ _ |- _ => apply (proj1 (proj2 (proj2 statement_lines))) in B as [B1 B2]; [|assumption] end);
    (split; [|assumption]); cbn [view_decl pf_annotations pf_parameters pf_return_type pf_requires pf_body];
    (apply one_line_view; [fixed|]); repeat first [apply Forall_nil | apply Forall_cons];
    first [apply A | apply parameters_part; assumption | apply block_line; assumption | assumption | exact Logic.I].
Qed.
Lemma declaration_line ts x rest : declaration_phrase d ts x rest -> incl ts all -> one_line (view_decl x) /\ incl rest all.
Proof.
  intros H I. inversion H; subst; walk_full; [eapply const_line; eassumption|eapply function_line; eassumption|eapply assertion_line; eassumption].
Qed.
Lemma program_line ts p : program_phrase d ts p -> incl ts all -> one_line (view_program p).
Proof.
  intros H I. assert (F : Forall (fun x => one_line (view_decl x)) p).
  { induction H as [ts x rest H _|ts x r1 l H _ IH]; apply declaration_line in H as [A B]; auto. }
  apply one_line_view; [|apply list_lines, F]. destruct F as [|x l X _]; [fixed|apply line_word, X].
Qed.
End Walk.

(** * Names do not matter *)
Lemma each_same : forall A (f : A -> nat -> tree * nat) (g : A -> A) l, Forall (fun a => forall n, f (g a) n = f a n) l ->
  forall n, push_each f (map g l) n = push_each f l n.
Proof.
  intros A f g l H. induction H as [|a l Ha _ IH]; intros n; [reflexivity|]. cbn [map push_each]. rewrite Ha.
  destruct (f a n) as [t n1]. unfold push. rewrite IH. reflexivity.
Qed.
Lemma argument_same : forall a n, argument_tree (nameless_argument a) n = argument_tree a n.
Proof.
  intros [k v ty] n. unfold argument_tree, nameless_argument, view_argument. cbn [aa_key aa_value aa_value_type word_of].
  destruct k as [|c k]; [|reflexivity]. cbn [text_eqb]. destruct ty; destruct v; reflexivity.
Qed.
Lemma annotation_kids_same : forall l n, annotation_kids (nameless_annotations l) n = annotation_kids l n.
Proof.
  intros l. apply each_same. apply Forall_forall. intros a _ n. unfold annotation_tree. cbn [pn_arguments].
  rewrite each_same; [reflexivity|]. apply Forall_forall. intros x _. apply argument_same.
Qed.
Definition expr_same (e : pexpr) : Prop := forall n, expr_tree (nameless_expr e) n = expr_tree e n.
Lemma type_same_of : forall t, P_type expr_same t -> forall n, type_tree (nameless_type t) n = type_tree t n.
Proof. intros [k [e|]] H n; cbn [nameless_type type_tree]; [rewrite (H n)|]; reflexivity. Qed.
Lemma exprs_same : forall e, expr_same e.
Proof.
  induction e using pexpr_induction; intros n; cbn [nameless_expr expr_tree]; try reflexivity.
  - rewrite IHe. destruct (expr_tree e n) as [t1 n1]. rewrite (type_same_of _ H). reflexivity.
  - rewrite IHe1. destruct (expr_tree e1 n) as [t1 n1]. rewrite IHe2. destruct (expr_tree e2 n1) as [t2 n2]. rewrite IHe3. reflexivity.
  - rewrite IHe1. destruct (expr_tree e1 n) as [t1 n1]. rewrite IHe2. reflexivity.
  - rewrite IHe. reflexivity.
  - rewrite each_same by exact H. destruct (push_each expr_tree args n) as [ks n1]. rewrite annotation_kids_same. reflexivity.
Qed.
Lemma types_same : forall t n, type_tree (nameless_type t) n = type_tree t n.
Proof. intros t. apply type_same_of. destruct t as [k [e|]]; cbn; [apply exprs_same | exact Logic.I]. Qed.
Lemma option_same : forall A (f : A -> nat -> tree * nat) g x n, (forall a n, f (g a) n = f a n) ->
  push_option f (option_map g x) n = push_option f x n.
Proof. intros A f g [a|] n H; [|reflexivity]. cbn. rewrite H. reflexivity. Qed.

Lemma stmts_same : forall s n, stmt_tree (nameless_stmt s) n = stmt_tree s n.
Proof.
  induction s using pstmt_induction; intros n; cbn [nameless_stmt stmt_tree]; rewrite ?annotation_kids_same;
    try (destruct (annotation_kids an n) as [aks n1]); try reflexivity.
  - rewrite option_same by apply types_same. destruct (push_option type_tree t n1) as [k2 n2]. rewrite exprs_same. reflexivity.
  - rewrite option_same by apply types_same. destruct (push_option type_tree t n1) as [k2 n2]. rewrite option_same by apply exprs_same. reflexivity.
  - rewrite exprs_same. reflexivity.
  - rewrite exprs_same. destruct (expr_tree c n1) as [t2 n2]. rewrite each_same by exact H. reflexivity.
  - rewrite exprs_same. destruct (expr_tree c n1) as [t2 n2]. rewrite each_same by exact H. destruct (push_each stmt_tree b n2) as [ks n3].
    rewrite IHs. reflexivity.
  - rewrite exprs_same. destruct (expr_tree c n1) as [t2 n2]. rewrite each_same by exact H. reflexivity.
  - rewrite option_same by apply exprs_same. reflexivity.
  - rewrite exprs_same. reflexivity.
  - rewrite each_same by exact H. reflexivity.
  - apply exprs_same.
Qed.
Lemma parameters_same : forall l n, parameters_kid (map (fun q => PParam (pp_name q) (nameless_type (pp_type q))) l) n = parameters_kid l n.
Proof.
  intros [|q l] n; [reflexivity|]. unfold parameters_kid. set (m := q :: l). cbv beta.
  assert (N : map pp_name (map (fun q => PParam (pp_name q) (nameless_type (pp_type q))) m) = map pp_name m) by (rewrite map_map; reflexivity).
  unfold m in *. clear m. cbn [map] in *. rewrite N. change (PParam (pp_name q) (nameless_type (pp_type q)) :: map (fun q => PParam (pp_name q) (nameless_type (pp_type q))) l)
    with (map (fun q => PParam (pp_name q) (nameless_type (pp_type q))) (q :: l)).
  rewrite each_same; [reflexivity|]. apply Forall_forall. intros x _ k. unfold parameter_tree. cbn [pp_type pp_name].
  rewrite types_same. reflexivity.
Qed.
Lemma decls_same : forall d n, decl_tree (nameless_decl d) n = decl_tree d n.
Proof.
  intros [f|s] n; cbn [nameless_decl decl_tree]; [|apply stmts_same]. unfold function_tree.
  cbn [pf_annotations pf_parameters pf_return_type pf_requires pf_body].
  rewrite annotation_kids_same. destruct (annotation_kids (pf_annotations f) n) as [aks n1].
  rewrite parameters_same. destruct (parameters_kid (pf_parameters f) n1) as [k2 n2].
  rewrite types_same. destruct (type_tree (pf_return_type f) n2) as [t3 n3].
  rewrite option_same by apply exprs_same. destruct (push_option expr_tree (pf_requires f) n3) as [k4 n4].
  rewrite each_same; [reflexivity|]. apply Forall_forall. intros x _. apply stmts_same.
Qed.
Lemma printed_same : forall E o p, @print_program_tree E o (map nameless_decl p) = print_program_tree o p.
Proof.
  intros E o p. unfold print_program_tree, program_tree. rewrite each_same; [reflexivity|]. apply Forall_forall. intros x _. apply decls_same.
Qed.
