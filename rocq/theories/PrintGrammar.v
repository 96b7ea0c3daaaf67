(** Where the tokens of a printed expression belong in the grammar. *)
From Coq Require Import ZArith Ascii String List Bool Lia.
From Verif Require Import Prelude Text Literals LiteralsSpec LiteralsProofs Types Ops Tables Tokenizer TokenizerSpec
  TokenizerProofs Annotations AbsOps Ast NameLookup Parse GrammarSpec CodeString GenBase GenBms GenFacts Spell PrintSpec
  PrintFacts.
Import ListNotations.
Open Scope string_scope.
Open Scope list_scope.

Section Grammar.
Variable o : code_options.
Variable d : dialect.
Notation tk := (tk o).
Notation tk_of_type := (tk_of_type o).
Notation sub_tokens := (sub_tokens o).
Notation wraps := (wraps o).

Definition group (e : expr) : precedence_group := precedence_group_of (expression_type e).
Definition compares (e : expr) : bool :=
  match group e with pg_binary_comparison => true | _ => false end.

(** What is asked of the grammar's choice where a whole expression starts, [rest] coming after it. *)
Definition starts (e : expr) (rest : list lexeme) : Prop :=
  match e with
  | EConversion _ _ _ | EIf _ _ _ _ => True
  | _ => choice d (tk e ++ rest) (compares e)
  end.

(** What is asked of it inside the expression. *)
Fixpoint agrees (e : expr) (rest : list lexeme) : Prop :=
  let whole x rest := starts x rest /\ agrees x rest in
  let operand outer x rest := if wraps outer x then whole x (rp :: rest) else agrees x rest in
  let part x rest :=
    choice d (sub_tokens if_expression x (tk x) ++ rest) (if wraps if_expression x then false else compares x)
    /\ operand if_expression x rest in
  match e with
  | EConversion _ x t =>
      operand conversion x ((tk_keyword_as, str "as") :: tk_of_type t ++ rest) /\
      match t with
      | Type_Node _ _ (Some w) _ => whole w (rp :: rest)
      | Type_Node _ _ None _ => True
      end
  | EIf _ l c r =>
      part l ((tk_keyword_if, str "if") :: sub_tokens if_expression c (tk c) ++ (tk_keyword_else, str "else") ::
              sub_tokens if_expression r (tk r) ++ rest) /\
      part c ((tk_keyword_else, str "else") :: sub_tokens if_expression r (tk r) ++ rest) /\
      part r rest
  | EBinary _ op l r =>
      operand op l (operator_lexeme op :: sub_tokens op r (tk r) ++ rest) /\ operand op r rest
  | EPrefix _ op x => operand op x rest
  | ECall _ _ _ _ args =>
      (fix all (l : list expr) : Prop :=
         match l with
         | [] => True
         | a :: l' => whole a (join_tokens false (map tk l') ++ rp :: rest) /\ all l'
         end) args
  | EId _ _ _ _ | ELiteral _ _ _ => True
  end.

Definition whole (x : expr) (rest : list lexeme) : Prop := starts x rest /\ agrees x rest.
Definition operand (outer : expr_kind) (x : expr) (rest : list lexeme) : Prop :=
  if wraps outer x then whole x (rp :: rest) else agrees x rest.
Definition part (x : expr) (rest : list lexeme) : Prop :=
  choice d (sub_tokens if_expression x (tk x) ++ rest) (if wraps if_expression x then false else compares x)
  /\ operand if_expression x rest.

(** ** Levels of the grammar *)

Definition level_of (g : precedence_group) : nonterminal :=
  match g with
  | pg_conversion_and_if => n_expression
  | pg_binary_logical | pg_binary_comparison | pg_binary_bitwise => n_binary
  | pg_binary_arithmetic => n_arithmetic
  | pg_prefix_unary => n_prefix
  | pg_postfix_unary | pg_primary => n_postfix
  end.

(** Derived at its level, if the choice is right. *)
Definition derived (e : expr) (p : pexpr) (rest : list lexeme) : Prop :=
  (level_of (group e) = n_binary -> starts e rest) -> derive d (level_of (group e)) (tk e ++ rest) p rest.

Lemma arithmetic_binary : forall ts p rest, derive d n_arithmetic ts p rest -> choice d ts false ->
  derive d n_binary ts p rest.
Proof.
  intros ts p rest H C. inversion H; subst.
  - apply d_operand; assumption.
  - eapply d_operation; try eassumption. unfold binary_operators. apply in_or_app. left. assumption.
Qed.

Lemma derived_binary : forall e p rest, derived e p rest -> choice d (tk e ++ rest) (compares e) ->
  group e <> pg_conversion_and_if -> derive d n_binary (tk e ++ rest) p rest.
Proof.
  intros e p rest H C G. unfold derived, compares in *.
  assert (St : starts e rest) by (destruct e; try exact Logic.I; exact C). specialize (H (fun _ => St)).
  destruct (group e); try congruence; cbn [level_of] in H; try exact H.
  - apply arithmetic_binary; assumption.
  - apply d_operand; assumption.
  - apply d_operand; [assumption|]. apply d_postfix; assumption.
  - apply d_operand; [assumption|]. apply d_postfix; assumption.
Qed.

Lemma derived_whole : forall e p rest, derived e p rest -> starts e rest -> derive d n_expression (tk e ++ rest) p rest.
Proof.
  intros e p rest H St. destruct (level_of (group e)) eqn:L.
  1: unfold derived in H; rewrite L in H; apply H; discriminate.
  all: assert (G : group e <> pg_conversion_and_if) by (intros G; rewrite G in L; discriminate L).
  all: apply d_expression, d_binary; apply derived_binary; [exact H | | exact G].
  all: destruct e; try exact St; exfalso; apply G; reflexivity.
Qed.

Lemma here : forall k x ts, ~ In k comments -> token_then ((k, x) :: ts) k x ts.
Proof. intros. apply tt_here. assumption. Qed.
Lemma eat_here : forall k x ts, ~ In k comments -> eats k ((k, x) :: ts) ts.
Proof. intros. eexists. apply tt_here. assumption. Qed.

Lemma parenthesized : forall u p rest, derive d n_expression (u ++ rp :: rest) p (rp :: rest) ->
  derive d n_parenthesized ((lp :: u ++ [rp]) ++ rest) p rest.
Proof.
  intros u p rest H. cbn [app]. rewrite <- app_assoc. cbn [app].
  eapply d_parenthesized; [apply eat_here; cbn; intuition discriminate | exact H | apply eat_here; cbn; intuition discriminate].
Qed.

Lemma in_parens : forall e p rest, derived e p (rp :: rest) -> whole e (rp :: rest) ->
  derive d n_postfix ((lp :: tk e ++ [rp]) ++ rest) p rest.
Proof.
  intros e p rest H (St & A). apply d_is_primary, d_is_parenthesized, parenthesized.
  apply derived_whole; assumption.
Qed.

(** The level an operand must have. *)
Definition required (g : precedence_group) : nonterminal :=
  match g with
  | pg_conversion_and_if | pg_binary_arithmetic | pg_binary_bitwise | pg_binary_logical => n_prefix
  | pg_binary_comparison => n_arithmetic
  | _ => n_postfix
  end.

Lemma postfix_required : forall g ts p rest, derive d n_postfix ts p rest -> derive d (required g) ts p rest.
Proof.
  intros g ts p rest H. destruct g; cbn; try exact H; try (apply d_postfix; exact H).
  apply d_term, d_postfix. exact H.
Qed.

Lemma operand_derived : forall outer e p rest,
  (forall rest, agrees e rest -> derived e p rest) -> operand outer e rest ->
  outer <> if_expression -> (outer = conversion -> level_of (group e) <> n_binary /\ level_of (group e) <> n_arithmetic \/ always_parenthesize o = true) ->
  derive d (required (precedence_group_of outer)) (sub_tokens outer e (tk e) ++ rest) p rest.
Proof.
  intros outer e p rest IH A N C. unfold operand, PrintFacts.sub_tokens in *.
  destruct (wraps outer e) eqn:W.
  - apply postfix_required. apply in_parens; [|exact A]. apply IH. exact (proj2 A).
  - unfold PrintFacts.wraps in W. apply orb_false_elim in W. destruct W as [W1 W2].
    specialize (IH rest A). unfold derived in IH. unfold needs_parentheses, compare_precedence in W2. fold (group e) in W2.
    assert (C' : outer = conversion -> level_of (group e) <> n_binary /\ level_of (group e) <> n_arithmetic).
    { intros K. destruct (C K) as [K2|K2]; [exact K2 | congruence]. }
    destruct (precedence_group_of outer) eqn:G, (group e) eqn:Ge; cbn in W2; try discriminate W2; cbn [level_of required] in *.
    all: try (match type of G with _ = pg_conversion_and_if =>
      assert (outer = conversion) as Ho by (destruct outer; try discriminate G; congruence);
      destruct (C' Ho); try congruence end).
    all: try (apply IH; intros K; discriminate K).
    all: try (apply d_term; apply IH; intros K; discriminate K).
    all: try (apply d_term, d_postfix; apply IH; intros K; discriminate K).
    all: try (apply d_postfix; apply IH; intros K; discriminate K).
Qed.

Lemma part_derived : forall e p rest,
  (forall rest, agrees e rest -> derived e p rest) -> part e rest ->
  derive d n_binary (sub_tokens if_expression e (tk e) ++ rest) p rest.
Proof.
  intros e p rest IH (C & A). unfold operand, PrintFacts.sub_tokens in *.
  destruct (wraps if_expression e) eqn:W.
  - apply d_operand; [exact C|]. apply d_postfix. apply in_parens; [|exact A]. apply IH. exact (proj2 A).
  - apply derived_binary; [apply IH; exact A | exact C |]. intros G.
    unfold PrintFacts.wraps, needs_parentheses, compare_precedence in W. fold (group e) in W. rewrite G in W.
    apply orb_false_elim in W. destruct W as [_ W]. discriminate W.
Qed.

Definition plain_conversions (p : pexpr) : bool := every (fun q => negb (converts_operation q)) p || always_parenthesize o.

Lemma type_derived_of : forall t q rest, shows_type t q ->
  match t with
  | Type_Node _ _ (Some w) _ => whole w (rp :: rest)
  | Type_Node _ _ None _ => True
  end ->
  match q with PType _ (Some w) => plain_conversions w | _ => true end = true ->
  type_holds (fun e => forall p, shows e p -> plain_conversions p = true -> forall rest, agrees e rest -> derived e p rest) t ->
  derive_type d (tk_of_type t ++ rest) q rest.
Proof.
  intros t q rest H A N IH. destruct H as [cv k cw K | cv w p cw W].
  - destruct k; try congruence; cbn [PrintFacts.tk_of_type app]; constructor; apply eat_here; cbn; intuition discriminate.
  - cbn in IH. cbn [PrintFacts.tk_of_type]. apply d_uint with (r1 := (lp :: tk w ++ [rp]) ++ rest);
      [apply eat_here; cbn; intuition discriminate|].
    apply parenthesized. apply derived_whole; [|exact (proj1 A)]. apply IH; [exact W | exact N | exact (proj2 A)].
Qed.

Lemma binary_in : forall op k, binary_token op = Some k -> expression_type_token op = k /\ In k binary_operators /\ ~ In k comments.
Proof.
  intros op k H. destruct op; try discriminate H; injection H as <-; (split; [reflexivity|]);
    (split; [cbn; tauto | cbn; intuition discriminate]).
Qed.

Lemma shows_not_binary : forall e p, shows e p -> (forall k a b, p <> PBinary k a b) ->
  level_of (group e) <> n_binary /\ level_of (group e) <> n_arithmetic.
Proof.
  intros e p H N. destruct H; unfold group; cbn; try (split; discriminate).
  - exfalso. eapply N. reflexivity.
  - destruct op; try discriminate; cbn; split; discriminate.
Qed.

Lemma args_derived : forall args ps, Forall2 shows args ps ->
  Forall (fun e => forall p, shows e p -> plain_conversions p = true -> forall rest, agrees e rest -> derived e p rest) args ->
  (forall p, In p ps -> plain_conversions p = true) -> args <> [] -> forall rest,
  (fix all (l : list expr) : Prop :=
         match l with
         | [] => True
         | a :: l' => (starts a (join_tokens false (map tk l') ++ rp :: rest) /\
                       agrees a (join_tokens false (map tk l') ++ rp :: rest)) /\ all l'
         end) args ->
  derive_sequence d (join_tokens true (map tk args) ++ rp :: rest) ps (rp :: rest).
Proof.
  intros args ps H. induction H as [|a p args ps A H IH]; intros F N NE rest AG; [congruence|].
  inversion F as [|? ? Fa Fr]; subst. destruct AG as [[St Ag] AG]. cbn [map join_tokens app] in *. rewrite <- app_assoc.
  assert (K : derive d n_expression (tk a ++ join_tokens false (map tk args) ++ rp :: rest) p
                (join_tokens false (map tk args) ++ rp :: rest)).
  { apply derived_whole; [|exact St]. apply Fa; [exact A | apply N; left; reflexivity | exact Ag]. }
  destruct args as [|b args].
  - inversion H; subst. apply d_one. exact K.
  - eapply d_more; [exact K | |].
    + cbn [map join_tokens app]. apply eat_here. cbn. intuition discriminate.
    + apply IH; [exact Fr | intros q Q; apply N; right; exact Q | discriminate | exact AG].
Qed.

Lemma plain_sub : forall p f, forallb (fun q => implb (plain_conversions p) (plain_conversions q)) f = true ->
  plain_conversions p = true -> forall q, In q f -> plain_conversions q = true.
Proof.
  intros p f H P q Q. rewrite forallb_forall in H. specialize (H q Q). rewrite P in H. exact H.
Qed.

Ltac plain := unfold plain_conversions in *; cbn [every] in *;
  destruct (always_parenthesize o); [rewrite ?orb_true_r; reflexivity|]; rewrite ?orb_false_r in *;
  repeat match goal with N : _ && _ = true |- _ => apply andb_prop in N; destruct N end; try assumption.

Lemma expr_derived : forall e p, shows e p -> plain_conversions p = true ->
  forall rest, agrees e rest -> derived e p rest.
Proof.
  induction e as [cv e t IHe IHt | cv l c r IHl IHc IHr | cv op l r IHl IHr | cv op e IHe
    | cv name lk st args IH | cv name lk g | cv lit t] using expr_width_induction; intros p H N rest A;
    inversion H; subst; unfold derived; intros St; cbn [PrintFacts.tk].
  - change (operand conversion e ((tk_keyword_as, str "as") :: tk_of_type t ++ rest) /\
      match t with Type_Node _ _ (Some w) _ => whole w (rp :: rest) | Type_Node _ _ None _ => True end) in A.
    destruct A as [A B]. rewrite <- app_assoc. cbn [app].
    match goal with He : shows e ?q |- _ => rename q into p1, He into HE end.
    assert (N1 : plain_conversions p1 = true) by plain.
    eapply d_conversion.
    + eapply (operand_derived conversion); [intros; eapply IHe; eassumption | exact A | discriminate |].
      intros _. unfold plain_conversions in N. destruct (always_parenthesize o) eqn:AP; [right; reflexivity|]. left.
      eapply shows_not_binary; [exact HE|]. intros k a b ->. cbn in N. discriminate N.
    + apply eat_here. cbn. intuition discriminate.
    + eapply type_derived_of; [eassumption | exact B | | exact IHt].
      match goal with K : shows_type t ?q |- _ => destruct q as [k [w|]] end; [|reflexivity]. plain.
  - change (part l ((tk_keyword_if, str "if") :: sub_tokens if_expression c (tk c) ++ (tk_keyword_else, str "else") ::
              sub_tokens if_expression r (tk r) ++ rest) /\
      part c ((tk_keyword_else, str "else") :: sub_tokens if_expression r (tk r) ++ rest) /\ part r rest) in A.
    destruct A as (A1 & A2 & A3). rewrite <- !app_assoc. cbn [app]. rewrite <- !app_assoc. cbn [app].
    apply d_expression. eapply d_if.
    + apply part_derived; [|exact A1]. intros. eapply IHl; [eassumption | plain | assumption].
    + apply eat_here. cbn. intuition discriminate.
    + apply part_derived; [|exact A2]. intros. eapply IHc; [eassumption | plain | assumption].
    + apply eat_here. cbn. intuition discriminate.
    + apply d_binary, part_derived; [|exact A3]. intros. eapply IHr; [eassumption | plain | assumption].
  - change (operand op l (operator_lexeme op :: sub_tokens op r (tk r) ++ rest) /\ operand op r rest) in A.
    destruct A as [A1 A2]. rewrite <- !app_assoc. cbn [app].
    match goal with B : binary_token op = Some ?k0 |- _ => rename B into HB, k0 into k end.
    destruct (binary_in _ _ HB) as (T & I1 & I2).
    assert (D1 : derive d (required (precedence_group_of op)) (sub_tokens op l (tk l) ++ operator_lexeme op :: sub_tokens op r (tk r) ++ rest) pl (operator_lexeme op :: sub_tokens op r (tk r) ++ rest)).
    { apply operand_derived; [|exact A1 | intros ->; discriminate HB | intros ->; discriminate HB].
      intros. eapply IHl; [eassumption | plain | assumption]. }
    assert (D2 : derive d (required (precedence_group_of op)) (sub_tokens op r (tk r) ++ rest) pr rest).
    { apply operand_derived; [|exact A2 | intros ->; discriminate HB | intros ->; discriminate HB].
      intros. eapply IHr; [eassumption | plain | assumption]. }
    unfold group in *. cbn [expression_type starts] in *. unfold compares, group in St. cbn [expression_type] in St.
    assert (Tk : token_then (operator_lexeme op :: sub_tokens op r (tk r) ++ rest) k (snd (operator_lexeme op))
      (sub_tokens op r (tk r) ++ rest)).
    { unfold operator_lexeme. rewrite T. apply tt_here. exact I2. }
    cbn [PrintFacts.tk] in St. rewrite <- app_assoc in St. cbn [app] in St.
    destruct op; try discriminate HB; injection HB as <-; cbn [precedence_group_of level_of required] in *;
      try (eapply d_operation; [exact (St eq_refl) | exact D1 | exact Tk | exact I1 | exact D2]);
      try (eapply d_comparison; [exact (St eq_refl) | exact D1 | exact Tk | cbn; tauto | exact D2]);
      try (eapply d_arithmetic; [exact D1 | exact Tk | cbn; tauto | exact D2]).
  - change (operand op e rest) in A.
    match goal with B : unary_token op = Some ?k0 |- _ => rename B into HB, k0 into k end.
    assert (D1 : derive d (required (precedence_group_of op)) (sub_tokens op e (tk e) ++ rest) p0 rest).
    { apply operand_derived; [|exact A | intros ->; discriminate HB | intros ->; discriminate HB].
      intros. eapply IHe; [eassumption | plain | assumption]. }
    unfold group in *. cbn [expression_type] in *. cbn [app].
    destruct op; try discriminate HB; injection HB as <-; cbn [precedence_group_of level_of required] in *;
      (eapply d_unary; [apply tt_here; cbn; intuition discriminate | cbn; tauto | exact D1]).
  - cbn [app]. rewrite <- app_assoc. cbn [app].
    match goal with F : Forall2 shows args ?q |- _ => rename F into HF, q into qs end.
    apply d_is_call. cbn [agrees] in A.
    destruct args as [|a args].
    + inversion HF; subst. eapply d_call_none; [apply tt_here | apply eat_here | apply eat_here | apply as_none];
        cbn; intuition discriminate.
    + eapply d_call; [apply tt_here | apply eat_here | | apply eat_here | apply as_none]; try (cbn; intuition discriminate).
      eapply args_derived; [exact HF | exact IH | | discriminate | exact A].
      intros q Q. unfold plain_conversions in *. destruct (always_parenthesize o); [rewrite orb_true_r; reflexivity|].
      rewrite orb_false_r in *. cbn [every] in N. apply andb_prop in N. destruct N as [_ N].
      rewrite forallb_forall in N. exact (N q Q).
  - apply d_is_primary, d_identifier, tt_here. cbn. intuition discriminate.
  - apply d_is_primary. cbn [app]. eapply d_literal; [apply tt_here | left]; destruct t0; cbn; intuition discriminate.
  - apply d_is_primary. cbn [app]. eapply d_literal; [apply tt_here | left]; cbn; intuition discriminate.
  - apply d_is_primary. cbn [app]. eapply d_literal; [apply tt_here | left]; cbn; intuition discriminate.
Qed.

Lemma expr_whole : forall e p, shows e p -> plain_conversions p = true -> forall rest, whole e rest ->
  derive d n_expression (tk e ++ rest) p rest.
Proof. intros e p H N rest (St & A). apply derived_whole; [|exact St]. apply expr_derived; assumption. Qed.
End Grammar.
