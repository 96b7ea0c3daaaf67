(** C33: how the expressions of C that are written group their operands. *)
From Coq Require Import ZArith Ascii String List Bool Lia.
From Verif Require Import Prelude Text Types Ops Literals LiteralsSpec Tables Tokenizer TokenizerSpec TokenizerProofs AbsOps Ast
  NameLookup CodeString Decimal DecimalSpec GenBase GenC GenFacts PrintSpec PrintFacts
  CGrammar CGrammarFacts CPrintSpec CSpell CPrintFacts CRegroup CBalance.
Import ListNotations.
Open Scope string_scope.
Open Scope list_scope.
Open Scope Z_scope.

(** For the expression [e] the generator appends [s], at any place.  [nested] is false for the expressions in
    statements, and true for the operands of expressions (src/bmd/codegen/codegen_c_cpp.cpp:573-600). *)
Definition prints (o : code_options) (d : c_dialect) (const_value : positive -> option avalue) (nested : bool)
    (e : expr) (s : text) : Prop :=
  forall out n b, exists spans,
    c_expr o d const_value nested e (GS out n b) = (GS (Code (cs_text out ++ s) spans) n b, Ok tt).

(** Whether there are integers of any width in the language that is written. *)
Definition any_width (o : code_options) (d : c_dialect) : bool :=
  match d with cpp20 => false | _ => c_23 o end.

Lemma any_width_bits : forall o d, any_width o d = bits o d.
Proof. destruct d; reflexivity. Qed.

(** ** C33: C output preserves expression structure *)

(** Full statement: for all options and dialects, all values of constants and all expressions [e] with the
    structure of the C expression [t] ([c_shows] in CPrintSpec.v), the text [s] that is written for [e] is
    read as [t] by C ([means] in CGrammar.v), and as nothing else.  It is false, see the refutations: operands
    on the right with an operator of the same level get no parentheses, signs run into each other, the
    parentheses of conditional expressions do not match, names of constants are not written for C23, and names
    may be reserved words of C.

    Without conditional expressions, or with one in the last operand of another, and with signs that are kept
    apart, the text can be read in exactly one way.  This is the right one exactly if the option for
    parentheses is on or no right operand has an operator of the same level: *)
Theorem C33_grouping_partial : forall o d const_value nested e t,
  c_shows const_value e t -> widths_exist (any_width o d) t = true ->
  (c_23 o = true -> mentions_const e = false) ->
  always_parenthesize o = true \/ signs_apart t = true ->
  no_conditional t = true \/ (nested = false /\ else_if t = true) ->
  exists s, prints o d const_value nested e s /\ (exists u, means s u) /\
    (means s t <-> always_parenthesize o = true \/ leans_left t = true).
Proof.
  intros o d cv nested e t H W C A N. rewrite any_width_bits in W.
  assert (I : inlined o e = true).
  { unfold inlined. destruct (c_23 o); [rewrite C by reflexivity|]; reflexivity. }
  assert (A' : apart o t = true).
  { unfold apart. destruct A as [-> | ->]; [reflexivity | apply orb_true_r]. }
  exists (cpr o d cv nested e). split.
  { intros out n b. exact (expr_cwrites o d cv e t H W I nested n b out). }
  assert (M : means (cpr o d cv nested e) (read_as o t)).
  { eapply means_intro; [|apply top_grouped; eassumption].
    pose proof (expr_cspelled o d cv e t H W A' nested) as Sp.
    specialize (Sp [] [] Logic.I (reads_end [] (Forall_nil _))). rewrite !app_nil_r in Sp. exact Sp. }
  split; [eexists; exact M|]. split.
  - intros M'. pose proof (means_unique _ _ _ M M') as E. unfold read_as in E.
    destruct (always_parenthesize o); [left; reflexivity | right; apply regroup_fixed; exact E].
  - intros Q. enough (read_as o t = t) as E by (rewrite E in M; exact M).
    unfold read_as. destruct (always_parenthesize o); [reflexivity|]. destruct Q as [Q | Q]; [discriminate Q|].
    apply regroup_fixed. exact Q.
Qed.

(** With conditional expressions, the parentheses match exactly if one conditional expression in a statement has
    exactly one other inside it.  In all other cases, the text is not an expression of C: *)
Theorem C33_parentheses_partial : forall o d const_value nested e t,
  c_shows const_value e t -> widths_exist (any_width o d) t = true ->
  (c_23 o = true -> mentions_const e = false) ->
  exists s, prints o d const_value nested e s /\
    (excess s = 0 <-> conditionals t = 0%nat \/ (nested = false /\ is_conditional t = true /\ conditionals t = 2%nat)) /\
    ((exists u, means s u) -> excess s = 0).
Proof.
  intros o d cv nested e t H W C. rewrite any_width_bits in W.
  assert (I : inlined o e = true).
  { unfold inlined. destruct (c_23 o); [rewrite C by reflexivity|]; reflexivity. }
  exists (cpr o d cv nested e). split.
  { intros out n b. exact (expr_cwrites o d cv e t H W I nested n b out). }
  split; [|intros (u & M); exact (means_balanced _ _ M)].
  rewrite (excess_expr o d cv e t H W nested).
  assert (P : is_conditional t = true -> (1 <= conditionals t)%nat) by (destruct t; cbn; [discriminate..| lia | discriminate | discriminate]).
  destruct (is_conditional t) eqn:E, nested; cbn [negb andb].
  - specialize (P eq_refl). split; [intros; lia|]. intros [Q | (Q & _)]; [lia | discriminate Q].
  - specialize (P eq_refl). split; [intros; right; repeat split; lia|]. intros [Q | (_ & _ & Q)]; lia.
  - split; [intros; left; lia|]. intros [Q | (Q & _)]; [lia | discriminate Q].
  - split; [intros; left; lia|]. intros [Q | (_ & Q & _)]; [lia | discriminate Q].
Qed.

(** *** Examples *)

Definition no_constants : positive -> option avalue := fun _ => None.
Definition ca : expr := EId None (str "a") None None.
Definition cn (z : Z) : expr := ELiteral (Some (AV TInt (Some z))) [] tk_decimal_literal.
Definition cbin (k : expr_kind) (l r : expr) : expr := EBinary None k l r.
Definition ta : c_tree := C_Name (str "a").

Lemma cname_a : is_name (str "a") /\ c_name (str "a").
Proof.
  split; [split; [do 2 eexists; split; [reflexivity | vm_compute; intuition discriminate]|]; split|].
  - repeat (apply Forall_cons; [apply ident_b_iff; reflexivity|]); apply Forall_nil.
  - intros k q K. destruct k; try discriminate K; injection K as <-; discriminate.
  - intros q Q. unfold reserved in Q. in_list Q; subst q; discriminate.
Qed.
Lemma shows_ca : forall cv, c_shows cv ca ta.
Proof. intros cv. apply cs_name; [apply cname_a | apply cname_a | reflexivity]. Qed.
Lemma shows_cn : forall cv z, 0 <= z < 2 ^ 64 -> c_shows cv (cn z) (C_Number z).
Proof. intros cv z Z0. apply cs_literal, sv_int; [lia | left; lia]. Qed.

Ltac cshow := repeat (first [apply shows_ca | apply shows_cn; lia | apply cs_if | (apply cs_binary; [reflexivity|..])
  | (apply cs_prefix; [reflexivity|])]).

(** [(a + 10) * a - 10] *)
Example C33_example : exists s,
  prints default_options c99 no_constants false
    (cbin binary_minus (cbin multiplication (cbin binary_plus ca (cn 10)) ca) (cn 10)) s /\
  s = str "(a + 10) * a - 10" /\
  means s (C_Binary (str "-") (C_Binary (str "*") (C_Binary (str "+") ta (C_Number 10)) ta) (C_Number 10)).
Proof.
  destruct (C33_grouping_partial default_options c99 no_constants false
    (cbin binary_minus (cbin multiplication (cbin binary_plus ca (cn 10)) ca) (cn 10))
    (C_Binary (str "-") (C_Binary (str "*") (C_Binary (str "+") ta (C_Number 10)) ta) (C_Number 10)))
    as (s & P & _ & M); try (reflexivity || (intros; discriminate) || (right; reflexivity) || (left; reflexivity)); [cshow|].
  exists s. split; [exact P|]. split; [|apply M; right; reflexivity].
  destruct (P empty_code 0%nat false) as (spans & E). apply (f_equal (fun x => cs_text (g_out (fst x)))) in E.
  cbn [fst g_out cs_text] in E. rewrite app_nil_l in E. rewrite <- E. vm_compute. reflexivity.
Qed.

(** [a if a else (10 if a else 20)] is the only form of nested conditional expressions that works. *)
Example C33_else_if_example : exists s,
  prints default_options cpp20 no_constants false (EIf None ca ca (EIf None (cn 10) ca (cn 20))) s /\
  s = str "a ? a : (a ? 10 : 20)" /\
  means s (C_Conditional ta ta (C_Conditional ta (C_Number 10) (C_Number 20))).
Proof.
  destruct (C33_grouping_partial default_options cpp20 no_constants false (EIf None ca ca (EIf None (cn 10) ca (cn 20)))
    (C_Conditional ta ta (C_Conditional ta (C_Number 10) (C_Number 20))))
    as (s & P & _ & M); try (reflexivity || (intros; discriminate) || (right; reflexivity)); [cshow | right; split; reflexivity|].
  exists s. split; [exact P|]. split; [|apply M; right; reflexivity].
  destruct (P empty_code 0%nat false) as (spans & E). apply (f_equal (fun x => cs_text (g_out (fst x)))) in E.
  cbn [fst g_out cs_text] in E. rewrite app_nil_l in E. rewrite <- E. vm_compute. reflexivity.
Qed.

(** *** Refutations *)

(** What is written into empty output. *)
Definition written (o : code_options) (d : c_dialect) (const_value : positive -> option avalue) (e : expr) (s : text) : Prop :=
  exists spans, c_expr o d const_value false e (GS empty_code 0 false) = (GS (Code s spans) 0 false, Ok tt).

Lemma written_prints : forall o d cv e s s', prints o d cv false e s -> written o d cv e s' -> s = s'.
Proof.
  intros o d cv e s s' P (spans & W). destruct (P empty_code 0%nat false) as (spans' & E). rewrite W in E.
  injection E as E _. symmetry. exact E.
Qed.

(** [a - (a - a)] is written as [a - a - a], which is [(a - a) - a]. *)
Theorem C33_right_operand_refuted : exists e t s,
  c_shows no_constants e t /\ written default_options c99 no_constants e s /\ s = str "a - a - a" /\
  means s (C_Binary (str "-") (C_Binary (str "-") ta ta) ta) /\ ~ means s t.
Proof.
  exists (cbin binary_minus ca (cbin binary_minus ca ca)), (C_Binary (str "-") ta (C_Binary (str "-") ta ta)).
  exists (str "a - a - a"). split; [cshow|]. split; [eexists; vm_compute; reflexivity|]. split; [reflexivity|].
  assert (M : means (str "a - a - a") (C_Binary (str "-") (C_Binary (str "-") ta ta) ta)).
  { destruct (C33_grouping_partial default_options c99 no_constants false (cbin binary_minus (cbin binary_minus ca ca) ca)
      (C_Binary (str "-") (C_Binary (str "-") ta ta) ta)) as (s & P & _ & M);
      try (reflexivity || (intros; discriminate) || (right; reflexivity) || (left; reflexivity)); [cshow|].
    erewrite (written_prints _ _ _ _ _ (str "a - a - a") P) in M; [apply M; right; reflexivity|].
    eexists. vm_compute. reflexivity. }
  split; [exact M|]. intros M'. pose proof (means_unique _ _ _ M M') as E. discriminate E.
Qed.

(** [a && (a && a)]: the grouping also changes where it does not matter for the value. *)
Example C33_right_operand_example : exists s,
  written default_options c99 no_constants (cbin logical_and ca (cbin logical_and ca ca)) s /\ s = str "a && a && a".
Proof. exists (str "a && a && a"). split; [eexists; vm_compute; reflexivity | reflexivity]. Qed.

(** [-(-a)] is written as [--a], which decrements [a]. *)
Theorem C33_signs_refuted : exists e t s,
  c_shows no_constants e t /\ written default_options c99 no_constants e s /\ s = str "--a" /\
  means s (C_Unary (str "--") ta) /\ ~ means s t.
Proof.
  exists (EPrefix None unary_minus (EPrefix None unary_minus ca)), (C_Unary (str "-") (C_Unary (str "-") ta)), (str "--a").
  split; [cshow|]. split; [eexists; vm_compute; reflexivity|]. split; [reflexivity|].
  assert (M : means (str "--a") (C_Unary (str "--") ta)).
  { apply (means_intro _ [punct "--"; word "a"]).
    - apply (reads_punct "--" (str "a")); [cbn; tauto | discriminate | reflexivity | |].
      + intros (q & [E | E]); discriminate E.
      + apply (reads_word (str "a") []); [apply name_c_word, cname_a | exact Logic.I | apply reads_end; constructor].
    - apply (derives_up 0 13); [lia | lia|]. apply d_increment; [cbn; tauto|]. apply (derives_up 13 15); [lia | lia|].
      apply d_name, cname_a. }
  split; [exact M|]. intros M'. pose proof (means_unique _ _ _ M M') as E. discriminate E.
Qed.

(** [-x], where [x] is a constant with the value -1, is written as [--1]. *)
Theorem C33_constant_refuted : exists const_value e t s,
  c_shows const_value e t /\ written default_options c99 const_value e s /\ s = str "--1" /\
  means s (C_Unary (str "--") (C_Number 1)) /\ ~ means s t.
Proof.
  exists (fun _ => Some (AV TInt (Some (-1)))), (EPrefix None unary_minus (EId None (str "x") (Some (LNode DConst 1)) None)).
  exists (C_Unary (str "-") (C_Unary (str "-") (C_Number 1))), (str "--1").
  split.
  { apply cs_prefix; [reflexivity|]. eapply cs_const; [reflexivity|]. apply (sv_negative (-1)); [lia | left; lia]. }
  split; [eexists; vm_compute; reflexivity|]. split; [reflexivity|].
  assert (D1 : denotes (str "1") 1).
  { split; [reflexivity|]. split; [discriminate|]. intros c r E N. injection E as <- <-. contradiction N; reflexivity. }
  assert (M : means (str "--1") (C_Unary (str "--") (C_Number 1))).
  { apply (means_intro _ [punct "--"; Number (str "1")]).
    - apply (reads_punct "--" (str "1")); [cbn; tauto | discriminate | reflexivity | |].
      + intros (q & [E | E]); discriminate E.
      + eapply (reads_number (str "1") _ []); [exact D1 | exact Logic.I | apply reads_end; constructor].
    - apply (derives_up 0 13); [lia | lia|]. apply d_increment; [cbn; tauto|]. apply (derives_up 13 15); [lia | lia|].
      apply d_number, D1. }
  split; [exact M|]. intros M'. pose proof (means_unique _ _ _ M M') as E. discriminate E.
Qed.

(** A conditional expression has one parenthesis too many. *)
Theorem C33_conditional_refuted : exists e t s,
  c_shows no_constants e t /\ written default_options c99 no_constants e s /\ s = str "a ? a : a)" /\ forall u, ~ means s u.
Proof.
  exists (EIf None ca ca ca), (C_Conditional ta ta ta), (str "a ? a : a)").
  split; [cshow|]. split; [eexists; vm_compute; reflexivity|]. split; [reflexivity|].
  intros u M. apply means_balanced in M. discriminate M.
Qed.

(** For C23, nothing is written for the name of a constant. *)
Theorem C33_constant_name_refuted : exists const_value e t s,
  c_shows const_value e t /\ written (Options " " 4 false false false true false) c23 const_value e s /\ s = [] /\
  forall u, ~ means s u.
Proof.
  exists (fun _ => Some (AV TInt (Some 1))), (EId None (str "x") (Some (LNode DConst 1)) None), (C_Number 1), [].
  split; [eapply cs_const; [reflexivity | apply sv_int; [lia | left; lia]]|].
  split; [eexists; vm_compute; reflexivity|]. split; [reflexivity|].
  intros u ((ks & R & D) & _). rewrite (reads_unique _ _ R _ (reads_end [] (Forall_nil _))) in D.
  destruct (derives_starts _ _ _ D) as (w & r & E & _). discriminate E.
Qed.

(** A name that is a keyword of C is written as it is. *)
Theorem C33_keyword_refuted : exists x s,
  is_name x /\ written default_options c99 no_constants (EId None x None None) s /\ s = str "int" /\ forall u, ~ means s u.
Proof.
  exists (str "int"), (str "int").
  assert (N : is_name (str "int")).
  { split; [do 2 eexists; split; [reflexivity | vm_compute; intuition discriminate]|]. split.
    - repeat (apply Forall_cons; [apply ident_b_iff; reflexivity|]); apply Forall_nil.
    - intros k q K. destruct k; try discriminate K; injection K as <-; discriminate. }
  split; [exact N|]. split; [eexists; vm_compute; reflexivity|]. split; [reflexivity|].
  intros u ((ks & R & D) & _).
  assert (R' : reads (str "int") [word "int"]).
  { apply (reads_word (str "int") []); [apply name_c_word, N | exact Logic.I | apply reads_end; constructor]. }
  rewrite (reads_unique _ _ R _ R') in D. destruct (derives_starts _ _ _ D) as (w & r & E & F). injection E as <- <-.
  destruct F as [F | [F | F]]; [apply (F "int"); [cbn; tauto | reflexivity] | discriminate F | discriminate F].
Qed.

(** * Assumptions of the theorems above *)
Print Assumptions C33_grouping_partial.
Print Assumptions C33_parentheses_partial.
Print Assumptions C33_right_operand_refuted.
Print Assumptions C33_signs_refuted.
Print Assumptions C33_constant_refuted.
Print Assumptions C33_conditional_refuted.
Print Assumptions C33_constant_name_refuted.
Print Assumptions C33_keyword_refuted.
