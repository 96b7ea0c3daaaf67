(** C77: the printed tree of a program shows the program.  Every part of the program should have a line of its own, below
    the line of what it is a part of, and with a number of its own; and what is printed should tell programs apart. *)
From Coq Require Import ZArith Ascii String List Bool Lia Permutation.
From Verif Require Import Prelude Text Types Tables Tokenizer Annotations Ast Parse ParseTotal ParseProps ParseFacts Diagnostics AnnotationWalkSpec
  ConvertParse ProgramTree ProgramTreeSpec ProgramTreeProofs ProgramTreeRead ProgramTreeTold.
Import ListNotations.
Open Scope string_scope.
Open Scope list_scope.
Open Scope nat_scope.

Lemma slim_rich : forall p, forallb slim_carried (annotations_in p) = false <-> rich_annotation p.
Proof.
  intros p. unfold rich_annotation. rewrite <- not_true_iff_false, forallb_forall. split.
  - intros N. induction (annotations_in p) as [|x l IH].
    + exfalso. apply N. intros x [].
    + destruct (slim_carried x) eqn:S.
      * destruct IH as (y & Y & L).
        { intros H. apply N. intros y [<-|Y]; [exact S | apply H, Y]. }
        exists y. split; [right; exact Y | exact L].
      * exists x. split; [left; reflexivity|]. unfold slim_carried, slim in S. apply Nat.leb_gt in S. lia.
  - intros (x & X & L) N. specialize (N x X). unfold slim_carried, slim in N. apply Nat.leb_le in N. lia.
Qed.

(** C77. If no annotation has more than one argument, the printed tree is the layout of the parts of the program, whose numbers
    are those from zero on, each once, smaller below. *)
Theorem C77_lines_partial : forall E o p, ~ rich_annotation p -> exists v,
  @print_program_tree E o p = Ok (layout (colored o) (width o) number 0 [] v) /\
  unnumbered v = view_program p /\ Permutation (numbers v) (seq 0 (length (numbers v))) /\ descending v.
Proof.
  intros E o p R. unfold print_program_tree. pose proof (program_made p 0) as M. destruct (program_tree p 0) as [t n].
  destruct M as (L & C & V & B & D).
  assert (T : tnamed t = true).
  { rewrite B. destruct (forallb slim_carried (annotations_in p)) eqn:S; [reflexivity|]. apply slim_rich in S. contradiction. }
  exists (numbering n t). rewrite print_layout, T. split; [reflexivity|]. split; [rewrite numbering_view; exact V|].
  split; [|apply numbering_descending, D, le_n].
  assert (X : Permutation (numbers (numbering n t)) (seq 0 (S n))).
  { apply (Permutation_count_occ Nat.eq_dec). intros x. rewrite numbering_numbers. fold (cnt (n :: tnumbers t) x).
    rewrite cnt_cons, C. fold (cnt (seq 0 (S n)) x).
    assert (Q : forall k, cnt (seq 0 k) x = inb 0 k x).
    { induction k as [|k IH]; [symmetry; apply inb_empty|]. rewrite seq_S, cnt_app, IH. cbn [plus].
      rewrite cnt_cons. rewrite (inb_join 0 k (S k)) by lia. cbn. lia. }
    rewrite Q. rewrite (inb_join 0 n (S n)) by lia. lia. }
  rewrite (Permutation_length X), seq_length. exact X.
Qed.

(** C77. Otherwise a name beyond the end of [child_names] is read. *)
Theorem C77_undefined : forall E o p,
  (@print_program_tree E o p = UB <-> rich_annotation p) /\ (~ rich_annotation p -> exists out, @print_program_tree E o p = Ok out).
Proof.
  intros E o p. unfold print_program_tree. pose proof (program_made p 0) as M. destruct (program_tree p 0) as [t n].
  destruct M as (_ & _ & _ & B & _). rewrite print_layout, B, <- slim_rich.
  destruct (forallb slim_carried (annotations_in p)); (split; [split; congruence|]).
  - intros _. eexists. reflexivity.
  - intros N. exfalso. apply N. reflexivity.
Qed.

(** C77. Such a program can be parsed, and its analysis may be what is to be debugged: here the arguments are wrong. *)
Theorem C77_annotation_refuted : exists p, parse (tokens_of "@unroll(1, 2) function f() -> Int { return 0; }") = Some (Ok p) /\
  forall E o, @print_program_tree E o p = UB.
Proof.
  eexists. split; [vm_compute; reflexivity|]. intros E o. apply C77_undefined. eexists. split; [cbn; left; reflexivity|]. cbn. lia.
Qed.

(** C77. What is printed tells programs apart by what is shown of them. *)
Theorem C77_told : forall E o p q out, 0 < width o -> one_line (view_program p) -> one_line (view_program q) ->
  @print_program_tree E o p = Ok out -> @print_program_tree E o q = Ok out -> view_program p = view_program q.
Proof.
  intros E o p q out W P Q Hp Hq.
  assert (R : forall p, @print_program_tree E o p = Ok out -> ~ rich_annotation p).
  { intros x H N. apply (C77_undefined E o x) in N. rewrite H in N. discriminate N. }
  destruct (C77_lines_partial E o p (R p Hp)) as (v & V1 & V2 & _), (C77_lines_partial E o q (R q Hq)) as (u & U1 & U2 & _).
  rewrite Hp in V1. rewrite Hq in U1. rewrite <- V2, <- U2 in *.
  apply (read_back (colored o) (width o) W); rewrite ?V2, ?U2; try apply worded_program; rewrite <- ?V2, <- ?U2; try assumption.
  congruence.
Qed.

(** C77. The operators and the types can be told by their words. *)
Theorem C77_operators : forall a b, (tk_is_binary_operator a = true /\ tk_is_binary_operator b = true) \/
  (tk_is_unary_operator a = true /\ tk_is_unary_operator b = true) -> operator_word a = operator_word b -> a = b.
Proof. intros a b H E. destruct a, b; solve [reflexivity | discriminate E | cbn in H; exfalso; intuition discriminate]. Qed.
Theorem C77_types : forall a b, type_word a = type_word b -> a = b.
Proof. intros a b E. destruct a, b; solve [reflexivity | discriminate E]. Qed.

(** C77. The same is printed for parsed programs exactly if they are the same but for the names of functions, constants,
    variables and annotations, and what else [nameless_decl] leaves out. *)
Theorem C77_alike : forall E o ts us p q out, 0 < width o -> on_lines ts -> on_lines us ->
  parse ts = Some (Ok p) -> parse us = Some (Ok q) -> @print_program_tree E o p = Ok out ->
  (@print_program_tree E o q = Ok out <-> map nameless_decl p = map nameless_decl q).
Proof.
  intros E o ts us p q out W L M P Q Hp. split; intros H.
  - apply parse_sound in P, Q. apply programs_told; [eapply fine_program, program_fine; eassumption..|].
    eapply C77_told; [exact W| | |exact Hp|exact H]; (eapply program_line; [|eassumption|apply incl_refl]; assumption).
  - rewrite <- Hp, <- (printed_same E o p), H. symmetry. apply printed_same.
Qed.
Lemma on_lines_of : forall ts, forallb (fun t : lexeme => negb (existsb (Ascii.eqb "010"%char) (snd t)) ||
  token_type_eqb (fst t) tk_line_comment || token_type_eqb (fst t) tk_block_comment) ts = true -> on_lines ts.
Proof.
  intros ts F k x H N. rewrite forallb_forall in F. specialize (F _ H). cbn [fst snd] in F.
  assert (X : existsb (Ascii.eqb "010"%char) x = true) by (apply existsb_exists; exists "010"%char; split; [exact N|apply Ascii.eqb_refl]).
  rewrite X in F. cbn [negb orb] in F. destruct k; try discriminate F; auto.
Qed.
(** An example: a comment may go over more than one line. *)
Example C77_alike_example : exists ts us p q, ts = tokens_of "const a = f(1) if x <= y else 0x2;" /\
  us = tokens_of "/* a
comment */ const b = f(1) if x <= y else 0x2;" /\ on_lines ts /\ on_lines us /\
  parse ts = Some (Ok p) /\ parse us = Some (Ok q) /\ p <> q /\ map nameless_decl p = map nameless_decl q /\
  @print_program_tree unit (Program_Options 2 true) p = print_program_tree (Program_Options 2 true) q /\
  exists r, parse (tokens_of "const a = f(1) if x < y else 0x2;") = Some (Ok r) /\ map nameless_decl r <> map nameless_decl p.
Proof.
  exists (tokens_of "const a = f(1) if x <= y else 0x2;"), (tokens_of "/* a
comment */ const b = f(1) if x <= y else 0x2;").
  assert (P : exists p, parse (tokens_of "const a = f(1) if x <= y else 0x2;") = Some (Ok p) /\
    p = [PD_Statement (PConst (str "a") [] None (PIf (PCall (str "f") [PLiteral (str "1") tk_decimal_literal] [] false)
      (PBinary tk_less_or_equal (PId (str "x")) (PId (str "y"))) (PLiteral (str "0x2") tk_hexadecimal_literal)))])
    by (eexists; split; [vm_compute; reflexivity|reflexivity]).
  assert (Q : exists q, parse (tokens_of "/* a
comment */ const b = f(1) if x <= y else 0x2;") = Some (Ok q) /\
    q = [PD_Statement (PConst (str "b") [] None (PIf (PCall (str "f") [PLiteral (str "1") tk_decimal_literal] [] false)
      (PBinary tk_less_or_equal (PId (str "x")) (PId (str "y"))) (PLiteral (str "0x2") tk_hexadecimal_literal)))])
    by (eexists; split; [vm_compute; reflexivity|reflexivity]).
  destruct P as (p & P & ->), Q as (q & Q & ->). do 2 eexists. split; [reflexivity|]. split; [reflexivity|].
  split; [apply on_lines_of; vm_compute; reflexivity|]. split; [apply on_lines_of; vm_compute; reflexivity|].
  split; [exact P|]. split; [exact Q|]. split; [discriminate|]. split; [reflexivity|]. split; [vm_compute; reflexivity|].
  assert (R : exists r, parse (tokens_of "const a = f(1) if x < y else 0x2;") = Some (Ok r) /\
    r = [PD_Statement (PConst (str "a") [] None (PIf (PCall (str "f") [PLiteral (str "1") tk_decimal_literal] [] false)
      (PBinary tk_less_than (PId (str "x")) (PId (str "y"))) (PLiteral (str "0x2") tk_hexadecimal_literal)))])
    by (eexists; split; [vm_compute; reflexivity|reflexivity]).
  destruct R as (r & R & ->). eexists. split; [exact R|]. discriminate.
Qed.

(** C77. But the names of functions, constants and variables, and of annotations, are not shown. *)
Theorem C77_names_refuted : exists p q, parse (tokens_of "const a = 1; function f() -> Int { @x let b = 2; return 0; }") = Some (Ok p) /\
  parse (tokens_of "const c = 1; function g() -> Int { @y let d = 2; return 0; }") = Some (Ok q) /\ p <> q /\
  forall E o, @print_program_tree E o p = print_program_tree o q.
Proof.
  eexists. eexists. split; [vm_compute; reflexivity|]. split; [vm_compute; reflexivity|]. split; [discriminate|]. reflexivity.
Qed.

(** C77. The argument of an annotation is called its type, and the name of a list of parameters is that of the last one. *)
Theorem C77_argument_refuted : exists p, parse (tokens_of "@x(a = 1) function f(u: Int, v: Int) -> Int { return u; }") = Some (Ok p) /\
  @print_program_tree unit (Program_Options 1 false) p = Ok (str "13:Program(function)
 12:Function(function)
  9:annotations=Attribute_List(@)
   1:Attribute(@)
    0:type=Annotation_Argument(a)
  6:parameters=Parameter_List(v)
   3:Parameter(u)
    2:type=Type(Int)
     width=null
   5:Parameter(v)
    4:type=Type(Int)
     width=null
  10:return_type=Type(Int)
   width=null
  requires_clause=null
  11:body=Block_Statement({)
   8:Return_Statement(return)
    7:expression=Id_Expression(u)
").
Proof. eexists. split; [vm_compute; reflexivity|]. vm_compute. reflexivity. Qed.

(** An example for [C77_lines_partial], [C77_told] and [C77_undefined]. *)
Example C77_example : exists p, parse (tokens_of "const x: Uint(8) = f(1, -y) if a < b else (0 as Int);") = Some (Ok p) /\
  one_line (view_program p) /\ ~ rich_annotation p /\
  @print_program_tree unit (Program_Options 2 false) p = Ok (str "14:Program(const)
  13:Const(const)
    annotations=null
    1:type=Type(Uint)
      0:width=Literal(8)
    12:initializer=If_Expression(f)
      9:left=Function_Call_Expression(f)
        2:Literal(1)
        4:Prefix_Expression(-)
          3:expression=Id_Expression(y)
        null
      10:condition=Binary_Expression(<)
        5:left=Id_Expression(a)
        6:right=Id_Expression(b)
      11:right=Conversion_Expression(0)
        7:expression=Literal(0)
        8:target_type=Type(Int)
          width=null
").
Proof.
  eexists. split; [vm_compute; reflexivity|]. split; [cbn; intuition discriminate|]. split; [intros (x & X & _); cbn in X; tauto|].
  vm_compute. reflexivity.
Qed.

(** * Assumptions of the theorems above *)
Print Assumptions C77_lines_partial.
Print Assumptions C77_undefined.
Print Assumptions C77_annotation_refuted.
Print Assumptions C77_told.
Print Assumptions C77_operators.
Print Assumptions C77_types.
Print Assumptions C77_alike.
Print Assumptions C77_names_refuted.
Print Assumptions C77_argument_refuted.
