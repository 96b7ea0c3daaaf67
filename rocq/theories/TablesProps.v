(** C43, C44, C45: operator tables. *)
From Coq Require Import ZArith Ascii String List Bool Lia.
From Verif Require Import Prelude Types Text Tables Tokenizer TokenizerSpec.
Import ListNotations.
Open Scope string_scope.
Open Scope list_scope.
Open Scope nat_scope.

(** ** C43: Every operator the grammar accepts has a meaning *)

(** Full statement: every binary operator token.  Missing: [>=], for which it is false.
    The operation is the one whose own token is the given one. *)
Theorem C43_binary_operator_meaning_partial : forall t,
  tk_is_binary_operator t = true -> t <> tk_greater_or_equal ->
  exists k, @binary_expression_type_of_token unit t = Ok k /\ is_binary k = true
            /\ expression_type_token k = t.
Proof.
  intros t H Hn. destruct t; try discriminate H; try congruence;
    eexists; repeat split; reflexivity.
Qed.

Theorem C43_unary_operator_meaning : forall t,
  tk_is_unary_operator t = true ->
  exists k, @unary_expression_type_of_token unit t = Ok k /\ is_prefix_unary k = true
            /\ expression_type_token k = t.
Proof. intros t H. destruct t; try discriminate H; eexists; repeat split; reflexivity. Qed.

(** The only operator kind that no token can produce. *)
Theorem C43_only_greater_or_equal_unreachable : forall k,
  is_binary_arithmetic k || is_binary_bitwise k || is_binary_comparison k || is_binary_logical k = true ->
  (exists t, @binary_expression_type_of_token unit t = Ok k) <-> k <> greater_or_equal.
Proof.
  intros k Hk. split.
  - intros [t H] ->. destruct t; discriminate H.
  - intros Hn. exists (expression_type_token k). destruct k; try discriminate Hk; try congruence; reflexivity.
Qed.

Example C43_example : @binary_expression_type_of_token unit tk_shift_left = Ok shift_left.
Proof. reflexivity. Qed.

Theorem C43_greater_or_equal_refuted : exists t,
  tk_is_binary_operator t = true /\ tk_is_comparison_operator t = true /\
  operator_spelling t = Some ">=" /\ @binary_expression_type_of_token unit t = Abort.
Proof. exists tk_greater_or_equal. repeat split. Qed.

(** ** C44: Operator spellings and lengths agree *)

(** The spelling of a token with a fixed spelling. *)
Definition fixed_spelling (t : token_type) : option string :=
  match operator_spelling t with Some q => Some q | None => keyword_spelling t end.

(** Full statement: for every token type with a fixed spelling.  Missing: [!] and [&&]. *)
Theorem C44_length_of_spelling_partial : forall t q,
  fixed_spelling t = Some q -> t <> tk_logical_not -> t <> tk_logical_and ->
  token_type_length t = length (str q).
Proof.
  intros t q H H1 H2. destruct t; try discriminate H; try congruence; injection H as <-; reflexivity.
Qed.

Theorem C44_retokenize_partial : forall t q,
  fixed_spelling t = Some q -> t <> tk_logical_not -> t <> tk_logical_and ->
  tokenize (str q) = Some (Ok [Token (Pos 0 0 0) (length (str q)) t]).
Proof.
  intros t q H H1 H2. destruct t; try discriminate H; try congruence; injection H as <-; reflexivity.
Qed.

(** The printed spelling is the documented one for all tokens that can be printed; parentheses and [@]
    have no printed spelling. *)
Theorem C44_code_name : forall t q, fixed_spelling t = Some q ->
  token_type_code_name t =
  match t with
  | tk_left_parenthesis | tk_right_parenthesis | tk_at => []
  | _ => str q
  end.
Proof. intros t q H. destruct t; try discriminate H; injection H as <-; reflexivity. Qed.

Theorem C44_spellings_distinct : forall t1 t2 q,
  fixed_spelling t1 = Some q -> fixed_spelling t2 = Some q -> t1 = t2.
Proof.
  intros t1 t2 q H1 H2. destruct t1; try discriminate H1; injection H1 as <-;
    destruct t2; first [discriminate H2|reflexivity].
Qed.

Example C44_example : fixed_spelling tk_keyword_static_assert = Some "static_assert" /\
  token_type_length tk_keyword_static_assert = 13.
Proof. auto. Qed.

Theorem C44_refuted :
  (exists t q, fixed_spelling t = Some q /\ token_type_length t <> length (str q)) /\
  (exists t q, fixed_spelling t = Some q /\ tokenize (str q) = Some Abort).
Proof.
  split.
  - exists tk_logical_not, "!". split; [reflexivity|]. discriminate.
  - exists tk_logical_and, "&&". split; reflexivity.
Qed.

(** ** C45: Operator precedence is a strict partial order *)

Theorem C45_irreflexive : forall x, compare_precedence x x <> po_less /\ compare_precedence x x <> po_greater.
Proof. intros x. destruct x; split; discriminate. Qed.

Theorem C45_antisymmetric : forall x y, compare_precedence x y = po_less <-> compare_precedence y x = po_greater.
Proof. intros x y. destruct x, y; split; intros H; first [reflexivity|discriminate H]. Qed.

Theorem C45_transitive : forall x y z,
  compare_precedence x y = po_less -> compare_precedence y z = po_less -> compare_precedence x z = po_less.
Proof.
  intros x y z H1 H2. unfold compare_precedence in *.
  destruct (precedence_group_of x), (precedence_group_of y); try discriminate H1;
    destruct (precedence_group_of z); first [reflexivity|discriminate H2].
Qed.

(** The documented order: an operand of strictly greater precedence needs no parentheses; two binary
    operators are related exactly if one is a comparison and the other arithmetic. *)
Theorem C45_binary_related : forall x y,
  is_binary x = true -> is_binary y = true -> x <> conversion -> y <> conversion ->
  (compare_precedence x y = po_less <-> is_binary_comparison x = true /\ is_binary_arithmetic y = true).
Proof.
  intros x y Hx Hy Hcx Hcy. destruct x; try discriminate Hx; try congruence;
    destruct y; try discriminate Hy; try congruence; cbn; split; intros H;
    first [reflexivity | discriminate H | (split; reflexivity) | (destruct H; discriminate)].
Qed.

Example C45_example : compare_precedence equals binary_plus = po_less /\
  compare_precedence bitwise_and binary_plus = po_unordered /\
  compare_precedence logical_not id_expr = po_less.
Proof. auto. Qed.

(** * Assumptions of the theorems above *)
Print Assumptions C43_binary_operator_meaning_partial.
Print Assumptions C43_unary_operator_meaning.
Print Assumptions C43_only_greater_or_equal_unreachable.
Print Assumptions C43_greater_or_equal_refuted.
Print Assumptions C44_length_of_spelling_partial.
Print Assumptions C44_retokenize_partial.
Print Assumptions C44_code_name.
Print Assumptions C44_spellings_distinct.
Print Assumptions C44_refuted.
Print Assumptions C45_irreflexive.
Print Assumptions C45_antisymmetric.
Print Assumptions C45_transitive.
Print Assumptions C45_binary_related.
