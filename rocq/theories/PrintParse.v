(** Where the tokens of a printed program belong in the grammar. *)
From Coq Require Import ZArith Ascii String List Bool Lia.
From Verif Require Import Prelude Text Literals LiteralsSpec LiteralsProofs Types Ops Tables Tokenizer TokenizerSpec
  TokenizerProofs Annotations AbsOps Ast AstFacts NameLookup Parse GrammarSpec ParseFacts ParseDialects CodeString GenBase GenBms GenFacts Spell PrintSpec
  PrintFacts PrintGrammar PrintLook PrintProgram.
Import ListNotations.
Open Scope string_scope.
Open Scope list_scope.

Section Derive.
Variable o : code_options.
Variable d : dialect.
Notation tk := (tk o).
Notation tk_of_type := (tk_of_type o).
Notation tk_stmt := (tk_stmt o).
Notation tk_option := (tk_option o).
Notation whole := (whole o d).

Definition closing : lexeme := (tk_right_brace, str "}").

(** ** What is asked of the choice of the grammar *)

Definition type_whole (t : type_node) (rest : list lexeme) : Prop :=
  match t with
  | Type_Node _ _ (Some w) _ => whole w (rp :: rest)
  | Type_Node _ _ None _ => True
  end.
Definition option_whole (t : option type_node) (rest : list lexeme) : Prop :=
  match t with Some t => type_whole t rest | None => True end.

Fixpoint stmt_whole (s : stmt) (rest : list lexeme) : Prop :=
  match s with
  | SConst _ _ _ t e => option_whole t (assign :: tk e ++ semi :: rest) /\ whole e (semi :: rest)
  | SLet _ _ _ t (Some e) => option_whole t (assign :: tk e ++ semi :: rest) /\ whole e (semi :: rest)
  | SLet _ _ _ t None => option_whole t (semi :: rest)
  | SStatic_Assert _ e => whole e (rp :: semi :: rest)
  | SIf _ c x e =>
      whole c (tk_stmt x ++ (match e with Some y => (tk_keyword_else, str "else") :: tk_stmt y | None => [] end) ++ rest) /\
      stmt_whole x ((match e with Some y => (tk_keyword_else, str "else") :: tk_stmt y | None => [] end) ++ rest) /\
      match e with Some y => stmt_whole y rest | None => True end
  | SWhile _ c x => whole c (tk_stmt x ++ rest) /\ stmt_whole x rest
  | SControl _ _ (Some e) => whole e (semi :: rest)
  | SControl _ _ None => True
  | SAssign _ _ _ e => whole e (semi :: rest)
  | SBlock _ l =>
      (fix all (l : list stmt) : Prop :=
         match l with
         | [] => True
         | a :: l' => stmt_whole a (flat_map tk_stmt l' ++ closing :: rest) /\ all l'
         end) l
  | SExpr _ => True
  end.

Fixpoint parameters_whole (l : list parameter) (rest : list lexeme) : Prop :=
  match l with
  | [] => True
  | a :: l' =>
      type_whole (p_type a) (join_tokens false (map (tk_parameter o) l') ++ rp :: rest) /\ parameters_whole l' rest
  end.
Definition function_whole (f : func) (rest : list lexeme) : Prop :=
  parameters_whole (f_params f)
    ((tk_right_arrow, str "->") :: tk_of_type (f_return f) ++ tk_stmt (f_body f) ++ rest) /\
  type_whole (f_return f) (tk_stmt (f_body f) ++ rest) /\ stmt_whole (f_body f) rest.
Definition declaration_whole (x : declaration) (rest : list lexeme) : Prop :=
  match x with Decl_Function f => function_whole f rest | Decl_Statement s => stmt_whole s rest end.
Fixpoint program_whole (l : list declaration) : Prop :=
  match l with
  | [] => True
  | x :: l' => declaration_whole x (tk_program o l') /\ program_whole l'
  end.

(** ** Derivations *)

Notation fine := (plain_conversions o).

Lemma type_derived : forall t q rest, shows_type t q -> forallb fine (type_expressions q) = true -> type_whole t rest ->
  derive_type d (tk_of_type t ++ rest) q rest.
Proof.
  intros t q rest H N A. eapply type_derived_of; [exact H | exact A | |].
  - destruct q as [k [w|]]; cbn in N; [rewrite andb_true_r in N; exact N | reflexivity].
  - destruct t as [cv k [w|] n]; cbn; [|exact Logic.I]. intros p P F r. apply expr_derived; assumption.
Qed.

Lemma option_derived : forall t q rest, shows_option t q -> forallb fine (option_expressions q) = true -> option_whole t rest ->
  type_phrase d (tk_option t ++ rest) q rest.
Proof.
  intros t q rest [|t' q' H] N A; cbn [PrintProgram.tk_option app]; [apply tp_none|].
  eapply tp_some; [apply eat_here; cbn; intuition discriminate|]. eapply type_derived; eassumption.
Qed.

Definition stmt_result (s : stmt) (q : pstmt) (rest : list lexeme) : Prop :=
  match s, q with
  | SIf _ _ _ _, _ => if_phrase d [] (tk_stmt s ++ rest) q rest
  | SBlock _ _, PBlock ps => block_phrase d (tk_stmt s ++ rest) ps rest
  | _, _ => statement_phrase d (tk_stmt s ++ rest) q rest
  end.
Lemma result_statement : forall s q rest, stmt_result s q rest -> statement_phrase d (tk_stmt s ++ rest) q rest.
Proof.
  intros s q rest H. destruct s; try exact H.
  - eapply st_if; [apply as_none | exact H].
  - destruct q; try exact H. apply st_block. exact H.
Qed.

Ltac splitb := cbn [stmt_expressions option_expressions forallb flat_map app] in *; rewrite ?forallb_app in *; cbn [forallb] in *; rewrite ?andb_true_r in *;
    repeat match goal with N : _ && _ = true |- _ => apply andb_prop in N; destruct N end.
Ltac here := cbn; intuition discriminate.
Ltac ex := eapply expr_whole; eassumption.

Lemma statements_derived : forall l ps, Forall2 shows_stmt l ps ->
  Forall (fun s => forall q, shows_stmt s q -> forallb fine (stmt_expressions q) = true -> forall rest,
    stmt_whole s rest -> stmt_result s q rest) l ->
  forallb fine (flat_map stmt_expressions ps) = true -> forall rest,
  (fix all (l : list stmt) : Prop :=
         match l with
         | [] => True
         | a :: l' => stmt_whole a (flat_map tk_stmt l' ++ closing :: rest) /\ all l'
         end) l ->
  statements_phrase d (flat_map tk_stmt l ++ closing :: rest) ps (closing :: rest).
Proof.
  intros l ps H. induction H as [|a q l qs A H IH2]; intros F N rest W; cbn [flat_map app]; [apply sts_none|].
  inversion F as [|? ? Fa Fr]; subst. cbn [flat_map] in N. rewrite forallb_app in N. apply andb_prop in N. destruct N as [N1 N2].
  destruct W as [W1 W2]. rewrite <- app_assoc. eapply sts_more.
  - apply result_statement. eapply Fa; eassumption.
  - apply IH2; assumption.
Qed.

Lemma stmt_derived : forall s q, shows_stmt s q -> forallb fine (stmt_expressions q) = true -> forall rest,
  stmt_whole s rest -> stmt_result s q rest.
Proof.
  induction s as [cv x self t e | cv x self t i | cv e | cv c b IHb | cv c b e IHb IHe | cv c b IHb
    | cv t e | cv x lk e | cv l IH | e] using stmt_induction; intros q H N rest W;
    inversion H; subst.
  - destruct W as [W1 W2]. splitb. cbn [stmt_result PrintProgram.tk_stmt app]. eapply st_const; [apply as_none|].
    rewrite <- app_assoc. cbn [app]. rewrite <- app_assoc. cbn [app].
    eapply const_intro; [apply eat_here; here | apply tt_here; here | eapply option_derived; eassumption | | apply eat_here; here].
    eexists. split; [apply eat_here; here | ex].
  - destruct W as [W1 W2]. splitb. cbn [stmt_result PrintProgram.tk_stmt app]. eapply st_let; [apply as_none|].
    rewrite <- !app_assoc. cbn [app]. rewrite <- app_assoc. cbn [app].
    eapply let_initialized; [apply eat_here; here | apply tt_here; here | eapply option_derived; eassumption | | apply eat_here; here].
    eexists. split; [apply eat_here; here | ex].
  - cbn [stmt_whole] in W. splitb. cbn [stmt_result PrintProgram.tk_stmt PrintProgram.tk_option app]. eapply st_let; [apply as_none|].
    rewrite <- !app_assoc. cbn [app].
    eapply let_uninitialized; [apply eat_here; here | apply tt_here; here | apply eat_here; here | eapply type_derived; eassumption | apply eat_here; here].
  - cbn [stmt_whole] in W. splitb. cbn [stmt_result PrintProgram.tk_stmt]. apply st_assertion.
    change (((tk_keyword_static_assert, str "static_assert") :: (lp :: tk e ++ [rp]) ++ [semi]) ++ rest)
      with ((tk_keyword_static_assert, str "static_assert") :: ((lp :: tk e ++ [rp]) ++ [semi]) ++ rest).
    rewrite <- app_assoc.
    eapply assertion_intro; [apply eat_here; here | apply parenthesized; ex | apply eat_here; here].
  - remember (SBlock cv' l) as B0 eqn:EB. cbn [stmt_whole] in W. destruct W as (W1 & W2 & _). splitb. cbn [stmt_result].
    cbn [PrintProgram.tk_stmt app] in *. rewrite app_nil_r, <- app_assoc.
    eapply if_only; [apply eat_here; here | ex |].
    assert (K : stmt_result B0 (PBlock ps) rest)
      by (apply IHb; [subst B0; constructor; assumption | assumption | assumption]). subst B0. exact K.
  - remember (SBlock cv' l) as B0 eqn:EB. remember (SIf cv2 c2 b2 e2) as E0 eqn:EE. cbn [stmt_whole] in W. destruct W as (W1 & W2 & W3). splitb. cbn [stmt_result].
    cbn [PrintProgram.tk_stmt app] in *. rewrite <- !app_assoc. cbn [app].
    eapply if_else_if; [apply eat_here; here | ex | | apply eat_here; here | apply as_none | right; reflexivity |].
    + assert (K : stmt_result B0 (PBlock ps) ((tk_keyword_else, str "else") :: tk_stmt E0 ++ rest))
        by (apply IHb; [subst B0; constructor; assumption | assumption | assumption]). subst B0. exact K.
    + assert (K : stmt_result E0 q0 rest) by (apply IHe; assumption). subst E0. exact K.
  - remember (SBlock cv' l) as B0 eqn:EB. cbn [stmt_whole] in W. destruct W as (W1 & W2). splitb. cbn [stmt_result].
    cbn [PrintProgram.tk_stmt app] in *. rewrite <- app_assoc.
    eapply st_while; [apply as_none | apply eat_here; here | ex |].
    assert (K : stmt_result B0 (PBlock ps) rest)
      by (apply IHb; [subst B0; constructor; assumption | assumption | assumption]). subst B0. exact K.
  - eapply st_break; apply eat_here; here.
  - eapply st_continue; apply eat_here; here.
  - eapply st_return_nothing; apply eat_here; here.
  - cbn [stmt_whole] in W. splitb. cbn [stmt_result PrintProgram.tk_stmt app]. rewrite <- app_assoc. cbn [app].
    eapply st_return; [apply eat_here; here | ex | apply eat_here; here].
  - cbn [stmt_whole] in W. splitb. cbn [stmt_result PrintProgram.tk_stmt app]. rewrite <- app_assoc. cbn [app].
    eapply st_assignment; [apply as_none|].
    eapply assignment_intro; [apply tt_here; here | apply eat_here; here | ex | apply eat_here; here].
  - cbn [stmt_result PrintProgram.tk_stmt app]. rewrite <- app_assoc. cbn [app].
    eapply block_intro; [apply eat_here; here | eapply statements_derived; eassumption | apply eat_here; here].
Qed.

Lemma parameters_derived : forall l ps, Forall2 shows_parameter l ps ->
  forallb fine (flat_map (fun q => type_expressions (pp_type q)) ps) = true -> l <> [] -> forall rest, parameters_whole l rest ->
  parameters_phrase d (join_tokens true (map (tk_parameter o) l) ++ rp :: rest) ps (rp :: rest).
Proof.
  intros l ps H. induction H as [|a q l qs A H IH]; intros N NE rest W; [congruence|].
  destruct W as [W1 W2]. cbn [flat_map] in N. rewrite forallb_app in N. apply andb_prop in N. destruct N as [N1 N2].
  cbn [map join_tokens app]. rewrite <- app_assoc.
  assert (K : parameter_phrase d (tk_parameter o a ++ join_tokens false (map (tk_parameter o) l) ++ rp :: rest) q
                (join_tokens false (map (tk_parameter o) l) ++ rp :: rest)).
  { destruct A as [x self t q' X T]. cbn [p_type pp_type] in *. unfold tk_parameter at 1. cbn [p_name p_type app].
    eapply parameter_intro; [apply tt_here; here | apply eat_here; here | eapply type_derived; eassumption]. }
  destruct l as [|b l].
  - inversion H; subst. apply ps_one. exact K.
  - eapply ps_more; [exact K | |].
    + cbn [map join_tokens app]. apply eat_here. here.
    + apply IH; [exact N2 | discriminate | exact W2].
Qed.

Lemma function_derived : forall f q, shows_function f q -> forallb fine (function_expressions q) = true -> forall rest,
  function_whole f rest -> function_phrase d [] (tk_function o f ++ rest) q rest.
Proof.
  intros f q [g ps q' cv l body N P T R B S0] NE rest (W1 & W2 & W3). unfold function_expressions in NE.
  cbn [pf_parameters pf_return_type pf_requires pf_body app] in NE. splitb.
  unfold tk_function. cbn [app]. rewrite <- app_assoc. cbn [app]. rewrite <- app_assoc. cbn [app]. rewrite <- app_assoc.
  eapply function_intro; [apply eat_here; here | apply tt_here; here | apply eat_here; here | | apply eat_here; here
    | apply eat_here; here | eapply type_derived; eassumption | apply rq_none |].
  - destruct (f_params g) as [|a l0] eqn:E.
    + inversion P; subst. left. split; reflexivity.
    + right. eapply parameters_derived; [exact P | assumption | discriminate | exact W1].
  - rewrite B in *. assert (K : stmt_result (SBlock cv l) (PBlock body) rest)
      by (apply stmt_derived; [constructor; exact S0 | assumption | exact W3]). exact K.
Qed.

Lemma declaration_derived : forall x q, shows_declaration x q -> forallb fine (declaration_expressions q) = true -> forall rest,
  declaration_whole x rest -> declaration_phrase d (tk_declaration o x ++ rest) q rest.
Proof.
  intros x q H N rest W. destruct H as [cv x self t e q H | cv e q H | f q H]; cbn [tk_declaration declaration_expressions declaration_whole] in *.
  - inversion H; subst. destruct W as [W1 W2]. splitb. cbn [PrintProgram.tk_stmt app]. eapply dp_const; [apply as_none|].
    rewrite <- app_assoc. cbn [app]. rewrite <- app_assoc. cbn [app].
    eapply const_intro; [apply eat_here; here | apply tt_here; here | eapply option_derived; eassumption | | apply eat_here; here].
    eexists. split; [apply eat_here; here | ex].
  - inversion H; subst. cbn [stmt_whole] in W. splitb. cbn [PrintProgram.tk_stmt]. apply dp_assertion.
    change (((tk_keyword_static_assert, str "static_assert") :: (lp :: tk e ++ [rp]) ++ [semi]) ++ rest)
      with ((tk_keyword_static_assert, str "static_assert") :: ((lp :: tk e ++ [rp]) ++ [semi]) ++ rest).
    rewrite <- app_assoc.
    eapply assertion_intro; [apply eat_here; here | apply parenthesized; ex | apply eat_here; here].
  - eapply dp_function; [apply as_none|]. apply function_derived; assumption.
Qed.

Lemma program_derived : forall l qs, Forall2 shows_declaration l qs -> l <> [] -> forallb fine (program_expressions qs) = true ->
  program_whole l -> program_phrase d (tk_program o l) qs.
Proof.
  intros l qs H. induction H as [|x q l qs X H IH]; intros NE N W; [congruence|].
  destruct W as [W1 W2]. unfold program_expressions in N. cbn [flat_map] in N. rewrite forallb_app in N.
  apply andb_prop in N. destruct N as [N1 N2]. pose proof (declaration_derived _ _ X N1 _ W1) as K.
  unfold tk_program in *. cbn [flat_map]. destruct l as [|y l].
  - inversion H; subst. eapply pr_last; [exact K|]. intros k z [].
  - eapply pr_more; [exact K|]. apply IH; [discriminate | exact N2 | exact W2].
Qed.

(** ** Any choice *)

Section Any.
Hypothesis any : forall ts b, choice d ts b.

Lemma type_whole_any : forall t rest, type_whole t rest.
Proof. intros [c k [w|] n] rest; [apply whole_any; exact any | exact Logic.I]. Qed.
Lemma option_whole_any : forall t rest, option_whole t rest.
Proof. intros [t|] rest; [apply type_whole_any | exact Logic.I]. Qed.
Lemma stmt_whole_any : forall s rest, stmt_whole s rest.
Proof.
  induction s as [cv x self t e | cv x self t i | cv e | cv c b IHb | cv c b e IHb IHe | cv c b IHb
    | cv t e | cv x lk e | cv l IH | e] using stmt_induction; intros rest; cbn [stmt_whole];
    repeat match goal with |- _ /\ _ => split end; auto using option_whole_any; try (apply whole_any; exact any).
  - destruct i; [split|]; try apply option_whole_any; apply whole_any; exact any.
  - destruct e; [apply whole_any; exact any | exact Logic.I].
  - induction IH as [|a l A IH IH2]; [exact Logic.I|]. split; [apply A | exact IH2].
Qed.
Lemma program_whole_any : forall l, program_whole l.
Proof.
  induction l as [|[f|s] l IH]; [exact Logic.I | |].
  - split; [|exact IH]. split; [|split; [apply type_whole_any | apply stmt_whole_any]].
    match goal with |- parameters_whole _ ?r => generalize r end. intros r.
    induction (f_params f) as [|a l0 IH0]; [exact Logic.I | split; [apply type_whole_any | exact IH0]].
  - split; [apply stmt_whole_any | exact IH].
Qed.
End Any.
End Derive.

(** ** The choice of the parser *)

Section Look.
Variable o : code_options.
Notation tk := (tk o).
Notation tk_of_type := (tk_of_type o).
Notation tk_stmt := (tk_stmt o).
Notation known := (recognized (always_parenthesize o)).
Notation shallow := PrintLook.shallow.

Lemma shallow_semi : forall k ts, shallow k (semi :: ts).
Proof. intros k ts. apply shallow_break. cbn. tauto. Qed.
Lemma shallow_block : forall k cv l rest, shallow k (tk_stmt (SBlock cv l) ++ rest).
Proof. intros k cv l rest. cbn [PrintProgram.tk_stmt app]. apply shallow_break. cbn. tauto. Qed.

Lemma type_look : forall t q rest, shows_type t q -> forallb known (type_expressions q) = true -> shallow 0 rest ->
  type_whole o lower t rest.
Proof.
  intros t q rest H N R. destruct H as [cv k cw K | cv w p cw W]; [exact Logic.I|].
  cbn in N. rewrite andb_true_r in N. eapply whole_recognized; [exact W | exact N | apply shallow_rp; exact R].
Qed.
Lemma option_look : forall t q rest, shows_option t q -> forallb known (option_expressions q) = true -> shallow 0 rest ->
  option_whole o lower t rest.
Proof. intros t q rest [|t' q' H] N R; [exact Logic.I | eapply type_look; eassumption]. Qed.

Lemma shallow_init : forall e p rest, shows e p -> known p = true -> shallow 0 (assign :: tk e ++ semi :: rest).
Proof.
  intros e p rest H N. apply shallow_token; try discriminate; [cbn; intuition discriminate|].
  apply shallow_both; [eapply recognized_shallow; eassumption | eapply tokens_scan; exact H | apply shallow_semi].
Qed.

Ltac splitb := cbn [stmt_expressions option_expressions forallb flat_map app] in *; rewrite ?forallb_app in *; cbn [forallb] in *; rewrite ?andb_true_r in *;
    repeat match goal with N : _ && _ = true |- _ => apply andb_prop in N; destruct N end.

Lemma stmt_look : forall s q, shows_stmt s q -> forallb known (stmt_expressions q) = true -> forall rest,
  stmt_whole o lower s rest.
Proof.
  induction s as [cv x self t e | cv x self t i | cv e | cv c b IHb | cv c b e IHb IHe | cv c b IHb
    | cv t e | cv x lk e | cv l IH | e] using stmt_induction; intros q H N rest;
    inversion H; subst; splitb; cbn [stmt_whole].
  - split; [eapply option_look; try eassumption; eapply shallow_init; eassumption | eapply whole_recognized; try eassumption; apply shallow_semi].
  - split; [eapply option_look; try eassumption; eapply shallow_init; eassumption | eapply whole_recognized; try eassumption; apply shallow_semi].
  - eapply type_look; try eassumption. apply shallow_semi.
  - eapply whole_recognized; try eassumption. apply shallow_rp. apply shallow_semi.
  - split; [eapply whole_recognized; try eassumption; apply shallow_block|].
    split; [eapply (IHb (PBlock _)); [constructor; eassumption | assumption] | exact Logic.I].
  - split; [eapply whole_recognized; try eassumption; apply shallow_block|].
    split; [eapply (IHb (PBlock _)); [constructor; eassumption | assumption]|].
    eapply IHe; eassumption.
  - split; [eapply whole_recognized; try eassumption; apply shallow_block|].
    eapply (IHb (PBlock _)); [constructor; eassumption | assumption].
  - exact Logic.I.
  - exact Logic.I.
  - exact Logic.I.
  - eapply whole_recognized; try eassumption. apply shallow_semi.
  - eapply whole_recognized; try eassumption. apply shallow_semi.
  - match goal with K : Forall2 shows_stmt l _ |- _ => rename K into F end. clear H. revert N IH.
    induction F as [|a q l qs A F IH2]; intros N IH; [exact Logic.I|]. inversion IH; subst. splitb. split; [eauto | apply IH2; assumption].
Qed.

Lemma type_tokens : forall t q, shows_type t q -> forallb plain (type_expressions q) = true ->
  no_comparison (tk_of_type t) /\ balanced (tk_of_type t).
Proof.
  intros t q H N. split.
  - eapply type_plain_tokens; [exact H | destruct q as [k [w|]]; cbn in N; [rewrite andb_true_r in N; exact N | reflexivity]|].
    destruct t as [c k [w|] n]; cbn; [|exact Logic.I]. intros. eapply tokens_plain; eassumption.
  - destruct H as [cv' k cw K | cv' w q cw W].
    + destruct k; try congruence; cbn; apply balanced_cons; try discriminate; apply balanced_nil.
    + cbn [PrintFacts.tk_of_type]. apply balanced_cons; try discriminate. apply balanced_parens. eapply tokens_scan. exact W.
Qed.

Lemma plain_known : forall l, forallb plain l = true -> forallb known l = true.
Proof.
  induction l as [|p l IH]; [reflexivity|]. cbn. intros H. apply andb_prop in H. destruct H as [A B].
  rewrite (IH B). unfold recognized. rewrite A. reflexivity.
Qed.

Lemma parameters_look : forall l ps, Forall2 shows_parameter l ps ->
  forallb plain (flat_map (fun q => type_expressions (pp_type q)) ps) = true -> forall rest, shallow 0 rest ->
  parameters_whole o lower l rest /\ shallow 0 (join_tokens false (map (tk_parameter o) l) ++ rp :: rest).
Proof.
  intros l ps H. induction H as [|a q l qs A H IH]; intros N rest R; cbn [parameters_whole map join_tokens app].
  - split; [exact Logic.I|]. apply shallow_rp. eapply shallow_weaken; [exact R | lia].
  - cbn [flat_map] in N. rewrite forallb_app in N. apply andb_prop in N. destruct N as [N1 N2].
    destruct (IH N2 rest R) as [W S0]. destruct A as [x self t q' X T]. cbn [p_type pp_type] in *. split.
    + split; [|exact W]. eapply type_look; [exact T | apply plain_known; exact N1 | exact S0].
    + destruct (type_tokens _ _ T N1) as [C B]. unfold tk_parameter at 1. cbn [p_name p_type]. cbn [app].
      do 3 (apply shallow_token; try discriminate; [cbn; intuition discriminate|]). rewrite <- app_assoc.
      apply shallow_balanced; assumption.
Qed.

Lemma function_look : forall f q, shows_function f q -> forallb known (function_expressions q) = true ->
  forallb plain (signature_expressions (PD_Function q)) = true -> forall rest, function_whole o lower f rest.
Proof.
  intros f q [g ps q' cv l body N P T R B S0] NE NP rest. unfold function_expressions in NE. cbn [signature_expressions] in NP.
  cbn [pf_parameters pf_return_type pf_requires pf_body app] in *. splitb. unfold function_whole. rewrite B.
  assert (S1 : forall k, shallow k (tk_stmt (SBlock cv l) ++ rest)) by (intros k; apply shallow_block).
  split; [|split].
  - eapply parameters_look; [exact P | assumption|]. apply shallow_token; try discriminate; [cbn; intuition discriminate|].
    apply shallow_balanced; [| |apply S1]; eapply type_tokens; eassumption.
  - eapply type_look; [exact T | assumption | apply S1].
  - eapply (stmt_look _ (PBlock body)); [constructor; exact S0 | assumption].
Qed.

Lemma program_look : forall l qs, Forall2 shows_declaration l qs -> forallb known (program_expressions qs) = true ->
  forallb plain (flat_map signature_expressions qs) = true -> program_whole o lower l.
Proof.
  intros l qs H. induction H as [|x q l qs X H IH]; intros N P; [exact Logic.I|].
  unfold program_expressions in N. cbn [flat_map] in N, P. rewrite forallb_app in N, P.
  apply andb_prop in N. destruct N as [N1 N2]. apply andb_prop in P. destruct P as [P1 P2].
  split; [|apply IH; assumption]. destruct X as [cv x self t e q X | cv e q X | f q X]; cbn [declaration_whole declaration_expressions] in *.
  - eapply stmt_look; eassumption.
  - eapply stmt_look; eassumption.
  - eapply function_look; eassumption.
Qed.
End Look.

(** ** Printing and parsing *)

Lemma printable_split : forall b l, forallb (printable b) l = true ->
  forallb no_negation l = true /\ forallb (fun p => every (fun q => negb (converts_operation q)) p || b) l = true.
Proof.
  induction l as [|p l IH]; [split; reflexivity|]. cbn. intros H. apply andb_prop in H. destruct H as [A B].
  apply andb_prop in A. destruct A as [A1 A2]. destruct (IH B) as [B1 B2]. unfold no_negation. rewrite A1, A2. split; assumption.
Qed.

Section Final.
Variable o : code_options.
Hypothesis white : is_white (indent_char o).

Lemma program_printed : forall l qs, Forall2 shows_declaration l qs ->
  forallb (printable (always_parenthesize o)) (program_expressions qs) = true ->
  exists c ts, generate_bms_code o l empty_code = (c, Ok tt) /\ tokenize (cs_text c) = Some (Ok ts) /\
    lexemes (cs_text c) ts = tk_program o l.
Proof.
  intros l qs H N. destruct (printable_split _ _ N) as [N1 N2].
  destruct (program_writes o l qs H) as (c & E & T).
  destruct (spells_tokenize _ _ (program_spelled o white l qs H N1)) as (ts & E2 & L).
  exists c, ts. rewrite T. auto.
Qed.

Lemma program_in : forall d l qs, Forall2 shows_declaration l qs -> l <> [] ->
  forallb (printable (always_parenthesize o)) (program_expressions qs) = true -> program_whole o d l ->
  exists c ts, generate_bms_code o l empty_code = (c, Ok tt) /\ tokenize (cs_text c) = Some (Ok ts) /\
    program_phrase d (lexemes (cs_text c) ts) qs.
Proof.
  intros d l qs H NE N W. destruct (program_printed l qs H N) as (c & ts & E & T & L).
  exists c, ts. rewrite L. split; [exact E|]. split; [exact T|]. destruct (printable_split _ _ N) as [N1 N2].
  apply program_derived; assumption.
Qed.
End Final.
