(** C51 to C53: the BMS parser. *)
From Coq Require Import ZArith Ascii String List Bool Lia.
From Verif Require Import Prelude Text Tables Tokenizer Annotations Ast Parse GrammarSpec ParseFacts ParseComplete
  ParseTotal ParseDialects.
Import ListNotations.
Open Scope string_scope.
Open Scope list_scope.
Open Scope Z_scope.

(** The tokens of a source text, for examples. *)
Definition tokens_of (source : string) : list lexeme :=
  match tokenize (str source) with Some (Ok ts) => lexemes (str source) ts | _ => [] end.

(** ** C51: The parser accepts only programs *)

(** Full statement: for all tokens, if the parser accepts with the tree [p], then the grammar of
    src/bms/parsing/grammar.ebnf ([documented] in GrammarSpec.v) gives [p] to the tokens.  It is false:
    commas between arguments are optional, and string literals are expressions, see the refutations.
    Proved with these two relaxations, and none but these. *)
Theorem C51_only_programs_partial : forall ts p,
  parse ts = Some (Ok p) -> program_phrase upper ts p.
Proof. exact parse_sound. Qed.

Example C51_example : exists p, parse (tokens_of "function f(x: Uint(8)) -> Int { if x + 1 == 2 { return -x as Int; } return f(x); } ") = Some (Ok p)
  /\ program_phrase upper (tokens_of "function f(x: Uint(8)) -> Int { if x + 1 == 2 { return -x as Int; } return f(x); } ") p
  /\ p = [PD_Function (PFunc (str "f") [] [PParam (str "x") (PType tt_Uint (Some (PLiteral (str "8") tk_decimal_literal)))]
       (PType tt_Int None) None
       [PIf_Statement [] (PBinary tk_equals (PBinary tk_plus (PId (str "x")) (PLiteral (str "1") tk_decimal_literal))
            (PLiteral (str "2") tk_decimal_literal))
          [PReturn (Some (PConversion (PPrefix tk_minus (PId (str "x"))) (PType tt_Int None)))] None;
        PReturn (Some (PCall (str "f") [PId (str "x")] [] false))])].
Proof.
  eexists. split; [vm_compute; reflexivity|]. split; [apply parse_sound; vm_compute; reflexivity | reflexivity].
Qed.

(** [f(a b)] is accepted as a call with two arguments. *)
Theorem C51_commas_refuted : exists ts p,
  ts = tokens_of "const x = f(a b); " /\ parse ts = Some (Ok p) /\
  forall d, commas_optional d = false -> ~ program_phrase d ts p.
Proof.
  eexists. eexists. split; [reflexivity|]. split; [vm_compute; reflexivity|].
  intros d D H.
  assert (C : exists x, In (tk_comma, x) (tokens_of "const x = f(a b); ")).
  { remember (tokens_of "const x = f(a b); ") as ts0 eqn:E0. clear E0. inversion H as [ts x rest P Q | ts x r1 l P Q]; subst; [|inversion Q].
    inversion P as [? an r1 s ? A K | | ? ? ? K]; subst; [|inversion K].
    inversion K as [? ? x ? t r3 e r4 ? E1 E2 E3 (r5 & E4 & E5) E6]; subst.
    destruct (documented_call _ _ _ _ _ D E5 _ _ _ _ _ _ eq_refl) as [c Hc].
    apply annotations_ends in A. apply eats_ends in E1. apply token_ends in E2.
    apply type_plain in E3; [|exact D]. destruct E3 as [_ E3]. apply eats_ends in E4.
    destruct A as (p1 & -> & _). destruct E1 as (p2 & -> & _). destruct E2 as (p3 & -> & _).
    destruct E3 as (p4 & -> & _). destruct E4 as (p5 & -> & _).
    exists c. repeat (apply in_or_app; right). exact Hc. }
  destruct C as [x C]. vm_compute in C. intuition discriminate.
Qed.

(** A string literal is accepted as an expression. *)
Theorem C51_strings_refuted : exists ts p,
  ts = lexemes (str "const x = " ++ [ch_quote] ++ str "y" ++ [ch_quote] ++ str "; ")
         (match tokenize (str "const x = " ++ [ch_quote] ++ str "y" ++ [ch_quote] ++ str "; ")
          with Some (Ok l) => l | _ => [] end) /\
  parse ts = Some (Ok p) /\ forall d, string_expressions d = false -> ~ program_phrase d ts p.
Proof.
  eexists. eexists. split; [reflexivity|]. split; [vm_compute; reflexivity|].
  intros d D H. match type of H with program_phrase _ ?t _ => generalize dependent t; intros t0 H end.
  inversion H as [ts x rest P Q | ts x r1 l P Q]; subst; [|inversion Q].
  inversion P as [? an r1 s ? A K | | ? ? ? K]; subst; [|inversion K].
  inversion K as [? ? x ? t r3 e r4 ? E1 E2 E3 (r5 & E4 & E5) E6]; subst.
  eapply documented_string; [exact D | exact E5 | reflexivity].
Qed.

(** ** C52: The parser accepts every program *)

(** Full statement: [program_phrase documented ts p -> parse ts = Some (Ok p)].  It is false.  Before the
    parser reads a binary expression it looks for a comparison operator further on, at the same depth of
    parentheses, and with no semicolon, brace or [if] in between; if there is one it insists on a
    comparison.  And it takes no annotations between [else] and [if].  See the refutations.  Proved for
    every program in which exactly those binary expressions are comparisons for which the parser finds an
    operator ([foreseen] in GrammarSpec.v), and with no annotations after an [else]. *)
Theorem C52_every_program_partial : forall ts p,
  program_phrase lower ts p -> parse ts = Some (Ok p).
Proof. exact parse_complete. Qed.

(** In particular, for every documented program without comparison operators and annotations after an
    [else]. *)
Theorem C52_without_comparisons_partial : forall choices ts p,
  program_phrase (Dialect false false false choices) ts p ->
  (forall k x, In (k, x) ts -> ~ In k comparison_operators) -> parse ts = Some (Ok p).
Proof.
  intros choices ts p H C. apply parse_complete. eapply program_plain; [| |exact H|exact C]; reflexivity.
Qed.

(** The grammar with these restrictions gives at most one tree to the tokens. *)
Theorem C52_unambiguous : forall ts p q,
  program_phrase lower ts p -> program_phrase lower ts q -> p = q.
Proof. intros ts p q P Q. apply parse_complete in P. apply parse_complete in Q. congruence. Qed.

(** The tokens, evaluated. *)
Ltac spelled := match goal with |- context [tokens_of ?s] =>
  let v := eval vm_compute in (tokens_of s) in replace (tokens_of s) with v by (vm_compute; reflexivity) end.
Ltac token := first [apply tt_here; cbn; intuition discriminate
  | apply tt_comment; [cbn; tauto | token]].
Ltac eat := eexists; token.
Ltac member := cbn; tauto.

(** [f(a, b == c)]: the first argument is followed by a comparison operator, so [a] must be one. *)
Theorem C52_argument_refuted : exists ts p e,
  ts = tokens_of "const x = f(a, b == c); " /\
  program_phrase documented ts p /\ parse ts = Some (Err e) /\ pe_rule e = gr_comparison_expression.
Proof.
  exists (tokens_of "const x = f(a, b == c); ").
  exists [PD_Statement (PConst (str "x") [] None
    (PCall (str "f") [PId (str "a"); PBinary tk_equals (PId (str "b")) (PId (str "c"))] [] false))].
  eexists. split; [reflexivity|]. split; [|split; [vm_compute; reflexivity | reflexivity]].
  spelled. apply (pr_last _ _ _ []); [|intros k x []]. eapply dp_const; [apply as_none|].
  eapply const_intro; [eat | token | apply tp_none | | eat].
  eexists. split; [eat|]. apply d_expression, d_binary, d_operand; [exact Logic.I|].
  apply d_postfix, d_is_call. eapply d_call; [token | eat | | eat | apply as_none].
  eapply d_more; [| eat |].
  - apply d_expression, d_binary, d_operand; [exact Logic.I|].
    apply d_postfix, d_is_primary, d_identifier. token.
  - apply d_one. apply d_expression, d_binary. eapply d_comparison; [exact Logic.I| | token | member |];
      apply d_term, d_postfix, d_is_primary, d_identifier; token.
Qed.

(** [a if b else c == d]: the condition is followed by a comparison operator. *)
Theorem C52_condition_refuted : exists ts p e,
  ts = tokens_of "const x = a if b else c == d; " /\
  program_phrase documented ts p /\ parse ts = Some (Err e) /\ pe_rule e = gr_comparison_expression.
Proof.
  exists (tokens_of "const x = a if b else c == d; ").
  exists [PD_Statement (PConst (str "x") [] None
    (PIf (PId (str "a")) (PId (str "b")) (PBinary tk_equals (PId (str "c")) (PId (str "d")))))].
  eexists. split; [reflexivity|]. split; [|split; [vm_compute; reflexivity | reflexivity]].
  spelled. apply (pr_last _ _ _ []); [|intros k x []]. eapply dp_const; [apply as_none|].
  eapply const_intro; [eat | token | apply tp_none | | eat].
  eexists. split; [eat|]. apply d_expression. eapply d_if; [| eat | | eat |].
  1, 2: apply d_operand; [exact Logic.I|]; apply d_postfix, d_is_primary, d_identifier; token.
  apply d_binary. eapply d_comparison; [exact Logic.I| | token | member |];
    apply d_term, d_postfix, d_is_primary, d_identifier; token.
Qed.

(** [else @unroll if c {}]. *)
Theorem C52_else_refuted : exists ts p e,
  ts = tokens_of "function f() -> Void { if c { } else @a if c { } } " /\
  program_phrase documented ts p /\ parse ts = Some (Err e) /\ pe_rule e = gr_block_statement.
Proof.
  exists (tokens_of "function f() -> Void { if c { } else @a if c { } } ").
  exists [PD_Function (PFunc (str "f") [] [] (PType tt_Void None) None
    [PIf_Statement [] (PId (str "c")) []
      (Some (PIf_Statement [PAnn (str "a") []] (PId (str "c")) [] None))])].
  eexists. split; [reflexivity|]. split; [|split; [vm_compute; reflexivity | reflexivity]].
  spelled. apply (pr_last _ _ _ []); [|intros k x []]. eapply dp_function; [apply as_none|].
  assert (C : forall r, derive documented n_expression ((tk_identifier, str "c") :: r) (PId (str "c")) r).
  { intros r. apply d_expression, d_binary, d_operand; [exact Logic.I|].
    apply d_postfix, d_is_primary, d_identifier. token. }
  eapply function_intro; [eat | token | eat | left; split; reflexivity | eat | eat | apply d_void; eat
    | apply rq_none |].
  eapply block_intro; [eat | | eat]. eapply sts_more; [|apply sts_none].
  eapply st_if; [apply as_none|].
  eapply if_else_if; [eat | apply C | | eat | | left; reflexivity |].
  - eapply block_intro; [eat | apply sts_none | eat].
  - eapply as_more; [|apply as_none]. eapply annotation_bare; [eat | token].
  - eapply if_only; [eat | apply C |]. eapply block_intro; [eat | apply sts_none | eat].
Qed.

(** A program with comparisons that is accepted: both operands of [==] may be parenthesised
    comparisons. *)
Example C52_example :
  exists p, parse (tokens_of "const x = (a == b) == c; const y = f(a + 1 < b, d); ") = Some (Ok p)
  /\ program_phrase lower (tokens_of "const x = (a == b) == c; ")
       [PD_Statement (PConst (str "x") [] None
          (PBinary tk_equals (PBinary tk_equals (PId (str "a")) (PId (str "b"))) (PId (str "c"))))].
Proof.
  eexists. split; [vm_compute; reflexivity|].
  spelled. apply (pr_last _ _ _ []); [|intros k x []]. eapply dp_const; [apply as_none|].
  eapply const_intro; [eat | token | apply tp_none | | eat].
  eexists. split; [eat|]. apply d_expression, d_binary.
  eapply d_comparison; [apply foreseen_iff; vm_compute; reflexivity | | token | member |].
  - apply d_term, d_postfix, d_is_primary, d_is_parenthesized. eapply d_parenthesized; [eat | | eat].
    apply d_expression, d_binary.
    eapply d_comparison; [apply foreseen_iff; vm_compute; reflexivity | | token | member |];
      apply d_term, d_postfix, d_is_primary, d_identifier; token.
  - apply d_term, d_postfix, d_is_primary, d_identifier. token.
Qed.

(** ** C53: The parser always answers *)

(** Full statement: for the tokens of every source text the parser returns a program or an error at one
    of the tokens (or at their end); it neither aborts nor runs forever.  It is false, see the
    refutation.  Proved: it aborts only if somewhere an annotation starts with a parenthesis after its
    name, but no argument list follows. *)
Theorem C53_answers_partial : forall source tokens,
  tokenize source = Some (Ok tokens) ->
  let ts := lexemes source tokens in
  (exists p, parse ts = Some (Ok p)) \/
  (exists e before, parse ts = Some (Err e) /\ ts = before ++ pe_rest e) \/
  (parse ts = Some Abort /\ malformed_annotation ts).
Proof.
  intros source tokens T ts. destruct (parse_good ts) as [H|[H|[A [B|B]]]].
  - left. exact H.
  - right. left. exact H.
  - right. right. split; assumption.
  - exfalso. apply B. apply lexemes_quoted. exact T.
Qed.

(** The same for arbitrary tokens, as long as string literals have their quotes. *)
Theorem C53_answers_tokens_partial : forall ts,
  quoted ts -> ~ malformed_annotation ts ->
  (exists p, parse ts = Some (Ok p)) \/
  (exists e before, parse ts = Some (Err e) /\ ts = before ++ pe_rest e).
Proof.
  intros ts Q M. destruct (parse_good ts) as [H|[H|[A [B|B]]]]; [left | right | |]; try exact H; contradiction.
Qed.

(** An error in the arguments of an annotation aborts the program. *)
Theorem C53_annotation_refuted : exists source tokens,
  tokenize source = Some (Ok tokens) /\ parse (lexemes source tokens) = Some Abort /\
  source = str "@inline(1 const x = 1; ".
Proof.
  exists (str "@inline(1 const x = 1; "). eexists. split; [vm_compute; reflexivity|].
  split; [vm_compute; reflexivity | reflexivity].
Qed.

Example C53_example :
  parse (tokens_of "const x = ; ") =
    Some (Err (PErr gr_primary_expression [(tk_semicolon, str ";")] expected_primaries)) /\
  parse [] = Some (Err (PErr gr_program_declaration []
    [tk_keyword_const; tk_keyword_function; tk_keyword_static_assert; tk_at])).
Proof. vm_compute. split; reflexivity. Qed.

(** * Assumptions of the theorems above *)
Print Assumptions C51_only_programs_partial.
Print Assumptions C51_commas_refuted.
Print Assumptions C51_strings_refuted.
Print Assumptions C52_every_program_partial.
Print Assumptions C52_without_comparisons_partial.
Print Assumptions C52_unambiguous.
Print Assumptions C52_argument_refuted.
Print Assumptions C52_condition_refuted.
Print Assumptions C52_else_refuted.
Print Assumptions C53_answers_partial.
Print Assumptions C53_answers_tokens_partial.
Print Assumptions C53_annotation_refuted.
