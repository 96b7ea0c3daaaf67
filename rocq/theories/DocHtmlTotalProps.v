(** C63: which documents can be converted. *)
From Coq Require Import ZArith Ascii String List Bool Lia Permutation.
From Verif Require Import Prelude Text Literals Tokenizer TokenizerSpec HtmlWriter Directives BmdParse BmdParseSpec
  Parse GrammarSpec BmsHtml DocHtml DocHtmlSpec DocHtmlProps DocHtmlTotal.
Import ListNotations.
Open Scope string_scope.
Open Scope list_scope.
Open Scope Z_scope.

(** Full statement: each document that can be parsed and whose metadata is in order is converted.  Missing are
    the documents with carriage returns or with a node that is not [workable]; see the refutations below. *)
Theorem C63_converts_partial : forall arrange fuel src n width sheets,
  (forall l, Permutation (arrange l) l) -> ~ In ch_cr src ->
  bmd_parse fuel src = Some (Ok (Some n)) -> (forall m, below m n -> workable m) ->
  (forall s l, n = B_list s l -> meta_first l) ->
  exists w, doc_to_html arrange width sheets n = Some (Ok w).
Proof. exact document_answers. Qed.


(** Which documents can be parsed but not converted: an assertion fails. *)
Definition stops (src : text) : Prop :=
  exists n, bmd_parse 200 src = Some (Ok (Some n)) /\ doc_to_html (fun l => l) 2 [] n = Some Abort.

(** The same with an error. *)
Definition rejects (src : text) (c : document_error_code) (p : position) : Prop :=
  exists n, bmd_parse 200 src = Some (Ok (Some n)) /\
    doc_to_html (fun l => l) 2 [] n = Some (Err (Document_Error c p)).

Ltac witness := eexists; split; [vm_compute; reflexivity|]; vm_compute; reflexivity.

(** C63. Directives that have to be empty stop the conversion if they are empty: the assertion has the negation
    in the wrong place (src/bmd/html/doc_to_html.cpp:265-266). *)
Theorem C63_empty_refuted : stops (str "a \br b") /\ stops (str "\hr").
Proof. split; witness. Qed.

(** C63. An argument without a block: the tag is ended twice (src/bmd/html/doc_to_html.cpp:272-278). *)
Theorem C63_arguments_refuted : stops (str "a \b[x=1] b") /\ stops (str "\meta{\title[x=1]}").
Proof. split; witness. Qed.

(** C63. There is no conversion of list items and notes, and in a list with arguments the line
    is broken within the tag (src/bmd/html/html_writer.cpp:223-242). *)
Theorem C63_items_refuted : stops (str "\ul{\item{x}}") /\ stops (str "\ol[x=1]{ }") /\ stops (str "\note{x}").
Proof. repeat (apply conj; [witness|]). witness. Qed.

(** C63. Code in the text is parsed as a list but converted as a text. *)
Theorem C63_code_refuted : stops (str "a \c{x} b").
Proof. witness. Qed.

(** C63. An instruction without a block is dereferenced. *)
Theorem C63_instruction_refuted : exists n, bmd_parse 200 (str "\instruction") = Some (Ok (Some n)) /\
  doc_to_html (fun l => l) 2 [] n = Some UB.
Proof. witness. Qed.

(** C63. A number where a name should be is not reported. *)
Theorem C63_extension_refuted : stops (str "\instruction[ext=1]{x}").
Proof. witness. Qed.

(** C63. A comment within a paragraph. *)
Theorem C63_comment_refuted : stops (str "a/*c*/b") /\ stops (str ("a//c" ++ nl ++ "b")).
Proof. split; witness. Qed.

(** C63. Languages other than BMS are known but not implemented. *)
Theorem C63_language_refuted : stops (str "\codeblock[lang=c]{int x;}") /\ stops (str "\codeblock[lang=bmd]{x}").
Proof. split; witness. Qed.

(** C63. Code with an annotation that is not complete. *)
Theorem C63_annotation_refuted : stops (str "\codeblock{@f(}").
Proof. witness. Qed.

(** C63. Carriage returns. *)
Theorem C63_carriage_return_refuted : stops (str " \b{x}" ++ [ch_cr] ++ str "\b{y}").
Proof. witness. Qed.

(** These are reported, as they should be. *)
Example C63_reports :
  rejects (str ("\meta{\title{x}}" ++ nl ++ "x" ++ nl ++ nl ++ "\meta{\title{x}}")) de_meta_not_at_start_of_file
    (Position 3 0 20) /\
  rejects (str "\meta{\title{x}\title{x}}") de_duplicate_meta_entry (Position 0 15 15) /\
  rejects (str "\codeblock[lang=cobol]{x}") de_invalid_language (Position 0 16 16) /\
  rejects (str "\codeblock[lang=1]{x}") de_number_attribute_not_allowed (Position 0 16 16) /\
  rejects (str "\instruction[arch=z80]{x}") de_invalid_architecture (Position 0 18 18) /\
  rejects (str "\codeblock{$}") de_code_tokenization_failure (Position 0 11 11).
Proof. repeat (apply conj; [witness|]). witness. Qed.

(** The hypotheses can be met. *)
Example C63_example : exists n, bmd_parse 200 C61_source = Some (Ok (Some n)) /\
  (forall m, below m n -> workable m) /\ (forall s l, n = B_list s l -> meta_first l).
Proof.
  eexists. split; [vm_compute; reflexivity|]. split.
  - intros m B. apply below_nodes in B.
    match type of B with In m ?l => cut (Forall workable l); [intros F; rewrite Forall_forall in F; exact (F m B)|] end.
    clear m B. cbn [nodes flat_map app].
    repeat (apply Forall_cons; [|]); try apply Forall_nil; try exact Logic.I; try (intros X; discriminate X).
    + intros s l X. injection X as <- <-. cbn. lia.
    + split; [discriminate|]. split; [reflexivity|]. intros s k m. discriminate.
    + split; [reflexivity|]. intros s t X _. injection X as <- <-. split; [reflexivity|]. split.
      * split; [vm_compute; reflexivity|]. do 2 (split; [vm_compute; intuition discriminate|]).
        intros ts H. vm_compute in H. injection H as <-.
        repeat constructor; vm_compute; intuition discriminate.
      * eexists. split; [vm_compute; reflexivity|].
        intros (b & l & r1 & x & r2 & r3 & Q & (y & E1) & _).
        assert (In Tables.tk_at (map fst (b ++ l))) as I.
        { rewrite map_app. apply in_or_app. right. clear - E1.
          remember Tables.tk_at as k. induction E1; [left; reflexivity|right; auto]. }
        rewrite <- Q in I. vm_compute in I. intuition discriminate.
  - intros s l X. injection X as <- <-. intros n r X. injection X as <- <-. repeat constructor.
Qed.

(** * Assumptions of the theorems above *)
Print Assumptions C63_converts_partial.
Print Assumptions C63_empty_refuted.
Print Assumptions C63_arguments_refuted.
Print Assumptions C63_items_refuted.
Print Assumptions C63_code_refuted.
Print Assumptions C63_instruction_refuted.
Print Assumptions C63_extension_refuted.
Print Assumptions C63_comment_refuted.
Print Assumptions C63_language_refuted.
Print Assumptions C63_annotation_refuted.
Print Assumptions C63_carriage_return_refuted.
