(** C32 and C55: what the BMS generator prints, the parser reads back. *)
From Coq Require Import ZArith Ascii String List Bool Lia.
From Verif Require Import Prelude Text Literals LiteralsSpec Types Ops Tables Tokenizer TokenizerSpec TokenizerProofs Annotations AbsOps Ast
  NameLookup Parse GrammarSpec ParseFacts ParseComplete CodeString GenBase GenBms Spell PrintSpec PrintFacts PrintGrammar
  PrintLook PrintProgram PrintParse.
Import ListNotations.
Open Scope string_scope.
Open Scope list_scope.
Open Scope Z_scope.

(** The program [const x = e;], and how the parser represents it. *)
Definition constant (x : text) (e : expr) : list declaration := [Decl_Statement (SConst None x 1 None e)].
Definition parsed_constant (x : text) (p : pexpr) : list pdecl := [PD_Statement (PConst x [] None p)].

Lemma constant_shows : forall x e p, is_name x -> shows e p ->
  Forall2 shows_declaration (constant x e) (parsed_constant x p).
Proof. intros x e p N H. constructor; [|constructor]. apply sd_const, ss_const; [exact N | constructor | exact H]. Qed.
Lemma constant_expressions : forall x p f, forallb f (program_expressions (parsed_constant x p)) = f p.
Proof. intros x p f. cbn. apply andb_true_r. Qed.

(** ** C32: Printing then parsing an expression *)

(** Full statement: for all options that indent with whitespace, all expressions [e] with the parser's tree
    [p] ([shows] in PrintSpec.v), and all names [x], the code that is printed for [const x = e;] parses back
    with the tree [p].  It is false, see the refutations: the conversion of a binary expression is printed
    without the parentheses that it needs, the tokenizer makes [!] three characters long, and the parser's
    look-ahead for comparisons rejects some programs.

    There are enough parentheses for the documented grammar, except in conversions: *)
Theorem C32_enough_parentheses_partial : forall o x e p,
  is_white (indent_char o) -> is_name x -> shows e p -> printable (always_parenthesize o) p = true ->
  exists c ts,
    generate_bms_code o (constant x e) empty_code = (c, Ok tt) /\
    tokenize (cs_text c) = Some (Ok ts) /\
    program_phrase documented (lexemes (cs_text c) ts) (parsed_constant x p).
Proof.
  intros o x e p W N H P. apply (program_in o W); [apply constant_shows; assumption | discriminate | |].
  - rewrite constant_expressions. exact P.
  - apply program_whole_any. intros ts b. exact Logic.I.
Qed.

(** The parser returns the same tree if there are no comparisons, or one at the outside, or the expression is
    an if-expression with such parts ([recognized] in PrintSpec.v). *)
Theorem C32_round_trip_partial : forall o x e p,
  is_white (indent_char o) -> is_name x -> shows e p ->
  printable (always_parenthesize o) p = true -> recognized (always_parenthesize o) p = true ->
  exists c ts,
    generate_bms_code o (constant x e) empty_code = (c, Ok tt) /\
    tokenize (cs_text c) = Some (Ok ts) /\
    parse (lexemes (cs_text c) ts) = Some (Ok (parsed_constant x p)).
Proof.
  intros o x e p W N H P R.
  destruct (program_in o W lower (constant x e) (parsed_constant x p)) as (c & ts & G & T & D).
  - apply constant_shows; assumption.
  - discriminate.
  - rewrite constant_expressions. exact P.
  - eapply program_look; [apply constant_shows; eassumption | rewrite constant_expressions; exact R | reflexivity].
  - exists c, ts. split; [exact G|]. split; [exact T|]. apply parse_complete. exact D.
Qed.

(** More generally, it does if the parser finds a comparison operator ahead exactly where there is a
    comparison ([whole] in PrintGrammar.v asks this wherever a binary expression starts). *)
Theorem C32_whenever_foreseen_partial : forall o x e p,
  is_white (indent_char o) -> is_name x -> shows e p -> printable (always_parenthesize o) p = true ->
  whole o lower e [(tk_semicolon, str ";")] ->
  exists c ts,
    generate_bms_code o (constant x e) empty_code = (c, Ok tt) /\
    tokenize (cs_text c) = Some (Ok ts) /\
    parse (lexemes (cs_text c) ts) = Some (Ok (parsed_constant x p)).
Proof.
  intros o x e p W N H P A.
  destruct (program_in o W lower (constant x e) (parsed_constant x p)) as (c & ts & G & T & D).
  - apply constant_shows; assumption.
  - discriminate.
  - rewrite constant_expressions. exact P.
  - split; [|exact Logic.I]. split; [exact Logic.I | exact A].
  - exists c, ts. split; [exact G|]. split; [exact T|]. apply parse_complete. exact D.
Qed.

(** Evaluation, one result after the other. *)
Ltac run := repeat (split; [vm_compute; reflexivity|]); vm_compute; reflexivity.

(** Names and expressions for examples. *)
Lemma name_a : is_name (str "a").
Proof.
  split; [do 2 eexists; split; [reflexivity | vm_compute; intuition discriminate]|]. split.
  - repeat (apply Forall_cons; [apply ident_b_iff; reflexivity|]); apply Forall_nil.
  - intros k q K. destruct k; try discriminate K; injection K as <-; discriminate.
Qed.
Definition ea : expr := EId None (str "a") None None.
Definition en : expr := ELiteral None (str "10") tk_decimal_literal.
Definition binary (op : expr_kind) (l r : expr) : expr := EBinary None op l r.
Lemma shows_a : shows ea (PId (str "a")).
Proof. constructor. exact name_a. Qed.
Lemma shows_n : shows en (PLiteral (str "10") tk_decimal_literal).
Proof.
  apply (sh_number None decimal_lit (str "10") (str "10")). apply lit_decimal; [discriminate | |];
    repeat (apply Forall_cons || apply Forall_nil); eexists; split; (reflexivity || lia).
Qed.

(** [((a - (a - 10)) * a) == -a if (a << 10) < a else a & 10] *)
Definition sample : expr :=
  EIf None (binary equals (binary multiplication (binary binary_minus ea (binary binary_minus ea en)) ea) (EPrefix None unary_minus ea))
    (binary less_than (binary shift_left ea en) ea) (binary bitwise_and ea en).
Definition sample_parsed : pexpr :=
  PIf (PBinary tk_equals (PBinary tk_multiplication (PBinary tk_minus (PId (str "a")) (PBinary tk_minus (PId (str "a")) (PLiteral (str "10") tk_decimal_literal))) (PId (str "a"))) (PPrefix tk_minus (PId (str "a"))))
    (PBinary tk_less_than (PBinary tk_shift_left (PId (str "a")) (PLiteral (str "10") tk_decimal_literal)) (PId (str "a")))
    (PBinary tk_bitwise_and (PId (str "a")) (PLiteral (str "10") tk_decimal_literal)).
Lemma shows_sample : shows sample sample_parsed.
Proof. repeat (first [apply shows_a | apply shows_n | econstructor]). Qed.

Example C32_example : exists c ts,
  generate_bms_code default_options (constant (str "a") sample) empty_code = (c, Ok tt) /\
  cs_text c = str "const a = (a - (a - 10)) * a == -a if (a << 10) < a else a & 10;" ++ [ch_newline] /\
  tokenize (cs_text c) = Some (Ok ts) /\
  parse (lexemes (cs_text c) ts) = Some (Ok (parsed_constant (str "a") sample_parsed)).
Proof.
  destruct (C32_round_trip_partial default_options (str "a") sample sample_parsed) as (c & ts & G & T & P).
  - left. reflexivity.
  - exact name_a.
  - exact shows_sample.
  - reflexivity.
  - reflexivity.
  - exists c, ts. split; [exact G|]. split; [|split; assumption].
    assert (E : fst (generate_bms_code default_options (constant (str "a") sample) empty_code) = c) by (rewrite G; reflexivity).
    rewrite <- E. vm_compute. reflexivity.
Qed.

(** [a + 10 as Int]: the parentheses are missing. *)
Theorem C32_conversion_refuted : exists e p c ts err,
  shows e p /\ generate_bms_code default_options (constant (str "a") e) empty_code = (c, Ok tt) /\
  cs_text c = str "const a = a + 10 as Int;" ++ [ch_newline] /\
  tokenize (cs_text c) = Some (Ok ts) /\ parse (lexemes (cs_text c) ts) = Some (Err err).
Proof.
  exists (EConversion None (binary binary_plus ea en) (Type_Node None tt_Int None None)).
  exists (PConversion (PBinary tk_plus (PId (str "a")) (PLiteral (str "10") tk_decimal_literal)) (PType tt_Int None)).
  do 3 eexists. split; [|run].
  repeat (first [apply shows_a | apply shows_n | econstructor | discriminate]).
Qed.

(** [!abc] becomes the token ["!ab"] and the name [c]. *)
Theorem C32_negation_refuted : exists e p c ts q,
  shows e p /\ generate_bms_code default_options (constant (str "a") e) empty_code = (c, Ok tt) /\
  cs_text c = str "const a = !abc;" ++ [ch_newline] /\
  tokenize (cs_text c) = Some (Ok ts) /\ parse (lexemes (cs_text c) ts) = Some (Ok (parsed_constant (str "a") q)) /\ p <> q.
Proof.
  exists (EPrefix None logical_not (EId None (str "abc") None None)).
  exists (PPrefix tk_logical_not (PId (str "abc"))).
  do 2 eexists. exists (PPrefix tk_logical_not (PId (str "c"))). split; [|do 4 (split; [vm_compute; reflexivity|]); discriminate].
  constructor; [reflexivity|]. constructor.
  split; [do 2 eexists; split; [reflexivity | vm_compute; intuition discriminate]|]. split.
  - repeat (apply Forall_cons; [apply ident_b_iff; reflexivity|]); apply Forall_nil.
  - intros k q K. destruct k; try discriminate K; injection K as <-; discriminate.
Qed.

(** [f(a, a == 10)]: for the first argument the parser wants a comparison. *)
Theorem C32_argument_refuted : exists e p c ts err,
  shows e p /\ generate_bms_code default_options (constant (str "a") e) empty_code = (c, Ok tt) /\
  cs_text c = str "const a = a(a, a == 10);" ++ [ch_newline] /\
  tokenize (cs_text c) = Some (Ok ts) /\ parse (lexemes (cs_text c) ts) = Some (Err err).
Proof.
  exists (ECall None (str "a") None false [ea; binary equals ea en]).
  exists (PCall (str "a") [PId (str "a"); PBinary tk_equals (PId (str "a")) (PLiteral (str "10") tk_decimal_literal)] [] false).
  do 3 eexists. split; [|run].
  repeat (first [apply shows_a | apply shows_n | apply name_a | econstructor]).
Qed.

(** [(a + 10) & (a == 10)]: in the first parentheses the parser wants a comparison. *)
Theorem C32_parentheses_refuted : exists e p c ts err,
  shows e p /\ generate_bms_code default_options (constant (str "a") e) empty_code = (c, Ok tt) /\
  cs_text c = str "const a = (a + 10) & (a == 10);" ++ [ch_newline] /\
  tokenize (cs_text c) = Some (Ok ts) /\ parse (lexemes (cs_text c) ts) = Some (Err err).
Proof.
  exists (binary bitwise_and (binary binary_plus ea en) (binary equals ea en)).
  exists (PBinary tk_bitwise_and (PBinary tk_plus (PId (str "a")) (PLiteral (str "10") tk_decimal_literal))
    (PBinary tk_equals (PId (str "a")) (PLiteral (str "10") tk_decimal_literal))).
  do 3 eexists. split; [|run].
  repeat (first [apply shows_a | apply shows_n | econstructor]).
Qed.

(** The criterion covers [(a == 10) && (a < 10)]. *)
Example C32_criterion_example : whole default_options lower
  (binary logical_and (binary equals ea en) (binary less_than ea en)) [(tk_semicolon, str ";")].
Proof.
  split.
  - apply foreseen_iff. reflexivity.
  - cbn [agrees]. repeat split; apply foreseen_iff; reflexivity.
Qed.

(** ** C55: Printing then parsing a program *)

(** Full statement: for all options that indent with whitespace and all programs [l] that are not empty, with
    the parser's tree [qs] without annotations, the printed code parses back with the tree [qs].  It is false,
    see the refutations here and for C32: [else] is missing before blocks, the semicolon after calls, and
    [requires] clauses altogether.

    Printed programs without these belong to the documented grammar: *)
Theorem C55_documented_partial : forall o l qs,
  is_white (indent_char o) -> l <> [] -> Forall2 shows_declaration l qs ->
  forallb (printable (always_parenthesize o)) (program_expressions qs) = true ->
  exists c ts,
    generate_bms_code o l empty_code = (c, Ok tt) /\
    tokenize (cs_text c) = Some (Ok ts) /\
    program_phrase documented (lexemes (cs_text c) ts) qs.
Proof.
  intros o l qs W NE H P. apply (program_in o W); try assumption. apply program_whole_any. intros ts b. exact Logic.I.
Qed.

(** And the parser returns the same tree if it recognises all expressions, and there are no comparisons in the
    signatures of functions. *)
Theorem C55_round_trip_partial : forall o l qs,
  is_white (indent_char o) -> l <> [] -> Forall2 shows_declaration l qs ->
  forallb (printable (always_parenthesize o)) (program_expressions qs) = true ->
  forallb (recognized (always_parenthesize o)) (program_expressions qs) = true ->
  forallb plain (flat_map signature_expressions qs) = true ->
  exists c ts,
    generate_bms_code o l empty_code = (c, Ok tt) /\
    tokenize (cs_text c) = Some (Ok ts) /\
    parse (lexemes (cs_text c) ts) = Some (Ok qs).
Proof.
  intros o l qs W NE H P R S0. destruct (program_in o W lower l qs H NE P) as (c & ts & G & T & D).
  - eapply program_look; eassumption.
  - exists c, ts. split; [exact G|]. split; [exact T|]. apply parse_complete. exact D.
Qed.

(** A function and its tree, for examples. *)
Definition uint_a : type_node := Type_Node None tt_Uint (Some ea) None.
Definition puint_a : ptype := PType tt_Uint (Some (PId (str "a"))).
Definition function_of (l : list stmt) : declaration :=
  Decl_Function (Func (str "a") 1 None [Param (str "a") 2 uint_a] uint_a None (SBlock None l) false None unanalyzed).
Definition pfunction_of (l : list pstmt) : pdecl :=
  PD_Function (PFunc (str "a") [] [PParam (str "a") puint_a] puint_a None l).
Lemma function_shows : forall l ps, Forall2 shows_stmt l ps -> Forall2 shows_declaration [function_of l] [pfunction_of ps].
Proof.
  intros l ps H. constructor; [|constructor]. apply sd_function. apply sf_intro with (cv := None) (l := l); try reflexivity.
  - exact name_a.
  - repeat (first [apply shows_a | apply name_a | constructor]).
  - repeat (first [apply shows_a | constructor]).
  - exact H.
Qed.

Definition sample_body : list stmt :=
  [SLet None (str "a") 3 (Some uint_a) (Some sample);
   SIf None (binary equals ea en) (SBlock None [SAssign None (str "a") None (binary binary_plus ea en)])
     (Some (SIf None (binary less_than ea en) (SBlock None [SControl None ctl_return (Some ea)]) None));
   SWhile None sample (SBlock None [SControl None ctl_break None])].
Definition sample_body_parsed : list pstmt :=
  [PLet (str "a") [] (Some puint_a) (Some sample_parsed);
   PIf_Statement [] (PBinary tk_equals (PId (str "a")) (PLiteral (str "10") tk_decimal_literal))
     [PAssignment (str "a") [] (PBinary tk_plus (PId (str "a")) (PLiteral (str "10") tk_decimal_literal))]
     (Some (PIf_Statement [] (PBinary tk_less_than (PId (str "a")) (PLiteral (str "10") tk_decimal_literal)) [PReturn (Some (PId (str "a")))] None));
   PWhile [] sample_parsed [PBreak]].

Example C55_example : exists c ts,
  generate_bms_code default_options [function_of sample_body] empty_code = (c, Ok tt) /\
  tokenize (cs_text c) = Some (Ok ts) /\
  parse (lexemes (cs_text c) ts) = Some (Ok [pfunction_of sample_body_parsed]).
Proof.
  apply C55_round_trip_partial; try reflexivity; [left; reflexivity | discriminate |].
  apply function_shows. unfold sample_body, sample_body_parsed.
  repeat (first [apply shows_sample | apply shows_a | apply shows_n | apply name_a | econstructor]).
Qed.

(** [if a { } else { break; }] is printed without [else], and parses as two statements. *)
Theorem C55_else_refuted : exists c ts,
  generate_bms_code default_options
    [function_of [SIf None ea (SBlock None []) (Some (SBlock None [SControl None ctl_break None]))]] empty_code = (c, Ok tt) /\
  tokenize (cs_text c) = Some (Ok ts) /\
  parse (lexemes (cs_text c) ts) = Some (Ok [pfunction_of [PIf_Statement [] (PId (str "a")) [] None; PBlock [PBreak]]]).
Proof. do 2 eexists. run. Qed.

(** A call as a statement is printed without a semicolon. *)
Theorem C55_call_refuted : exists c ts err,
  generate_bms_code default_options
    [function_of [SExpr (ECall None (str "a") None true []); SControl None ctl_return (Some ea)]] empty_code = (c, Ok tt) /\
  tokenize (cs_text c) = Some (Ok ts) /\ parse (lexemes (cs_text c) ts) = Some (Err err).
Proof. do 3 eexists. run. Qed.

(** A [requires] clause is not printed. *)
Theorem C55_requires_refuted : exists c ts,
  generate_bms_code default_options
    [Decl_Function (Func (str "a") 1 None [] uint_a (Some ea) (SBlock None []) false None unanalyzed)] empty_code = (c, Ok tt) /\
  tokenize (cs_text c) = Some (Ok ts) /\
  parse (lexemes (cs_text c) ts) = Some (Ok [PD_Function (PFunc (str "a") [] [] puint_a None [])]).
Proof. do 2 eexists. run. Qed.

(** A comparison in parentheses confuses the parser about the width of the declared type before it:
    [const a: Uint(a) = 10 & (a == 10);] *)
Theorem C55_declared_type_refuted : exists l qs c ts err,
  Forall2 shows_declaration l qs /\
  generate_bms_code default_options l empty_code = (c, Ok tt) /\
  cs_text c = str "const a: Uint(a) = 10 & (a == 10);" ++ [ch_newline] /\
  tokenize (cs_text c) = Some (Ok ts) /\ parse (lexemes (cs_text c) ts) = Some (Err err).
Proof.
  exists [Decl_Statement (SConst None (str "a") 1 (Some uint_a) (binary bitwise_and en (binary equals ea en)))].
  exists [PD_Statement (PConst (str "a") [] (Some puint_a) (PBinary tk_bitwise_and (PLiteral (str "10") tk_decimal_literal)
    (PBinary tk_equals (PId (str "a")) (PLiteral (str "10") tk_decimal_literal))))].
  do 3 eexists. split; [|run].
  repeat (first [apply shows_a | apply shows_n | apply name_a | econstructor]).
Qed.

(** * Assumptions of the theorems above *)
Print Assumptions C32_enough_parentheses_partial.
Print Assumptions C32_round_trip_partial.
Print Assumptions C32_whenever_foreseen_partial.
Print Assumptions C32_conversion_refuted.
Print Assumptions C32_negation_refuted.
Print Assumptions C32_argument_refuted.
Print Assumptions C32_parentheses_refuted.
Print Assumptions C55_documented_partial.
Print Assumptions C55_round_trip_partial.
Print Assumptions C55_else_refuted.
Print Assumptions C55_call_refuted.
Print Assumptions C55_requires_refuted.
Print Assumptions C55_declared_type_refuted.
