(** Properties of the directive table: C42, C48. *)
From Coq Require Import ZArith Ascii String List Bool.
From Verif Require Import Prelude Text Literals Directives DirectivesSpec DirectivesProofs.
Import ListNotations.
Open Scope string_scope.
Open Scope list_scope.
Open Scope Z_scope.

(** C42. Every known name is found with its type. *)
Theorem C42_known_names_found : forall t, directive_type_by_id (name_of t) = Ok (Some t).
Proof.
  intros t. pose proof (directive_lookup (name_of t)) as H.
  destruct (directive_type_by_id (name_of t)) as [[u|]| | |]; try contradiction.
  - apply name_of_inj in H. subst u. reflexivity.
  - destruct H as [H _]. destruct (H t). reflexivity.
  - destruct (not_beyond_name t H).
Qed.

(** C42. A type is found only for its own name. *)
Theorem C42_only_known_names : forall id t, directive_type_by_id id = Ok (Some t) -> id = name_of t.
Proof.
  intros id t E. pose proof (directive_lookup id) as H. rewrite E in H. exact H.
Qed.

(** C42. Nothing is found, within the table, for any other string that does not come after all known
    names.  What is missing for C42 is [C42_beyond_refuted]. *)
Theorem C42_unknown_names_partial : forall id,
  (forall t, id <> name_of t) -> ~ precedes (str "ul") id -> directive_type_by_id id = Ok None.
Proof.
  intros id N B. pose proof (directive_lookup id) as H.
  destruct (directive_type_by_id id) as [[u|]| | |]; try contradiction.
  - destruct (N u H).
  - reflexivity.
  - apply beyond_ul in H. contradiction.
Qed.

(** C42. For strings that come after ["ul"], the entry past the end of the table is read. *)
Theorem C42_beyond_end_read : forall id, precedes (str "ul") id <-> directive_type_by_id id = UB.
Proof.
  intros id. pose proof (directive_lookup id) as H. split.
  - intros P. apply beyond_ul in P.
    destruct (directive_type_by_id id) as [[u|]| | |]; try contradiction.
    + subst id. destruct (not_beyond_name u P).
    + destruct H as [_ H]. contradiction.
    + reflexivity.
  - intros E. rewrite E in H. apply beyond_ul. exact H.
Qed.

Theorem C42_beyond_refuted : exists id, ~ defined (directive_type_by_id id).
Proof.
  exists (str "var"). intros H.
  assert (E : directive_type_by_id (str "var") = UB) by (vm_compute; reflexivity).
  rewrite E in H. exact H.
Qed.

Example C42_example :
  directive_type_by_id (str "codeblock") = Ok (Some dt_code_block) /\
  directive_type_by_id (str "code") = Ok None /\
  directive_type_by_id (str "ul") = Ok (Some dt_unordered_list) /\
  directive_type_by_id (str "ull") = UB.
Proof. vm_compute. repeat split; reflexivity. Qed.

(** C48. A directive that is passed through to HTML becomes the element of its own name, except
    [superscript]; and so distinct ones, other than [superscript], become distinct elements. *)
Theorem C48_passthrough_tag_partial : forall t,
  is_html_passthrough t = true -> t <> dt_superscript -> directive_tag t = name_of t.
Proof. intros t H N. destruct t; try discriminate H; try reflexivity. destruct N. reflexivity. Qed.

Theorem C48_distinct_tags_partial : forall t u,
  is_html_passthrough t = true -> is_html_passthrough u = true ->
  t <> dt_superscript -> u <> dt_superscript ->
  directive_tag t = directive_tag u -> t = u.
Proof.
  intros t u Ht Hu Nt Nu E. apply name_of_inj.
  rewrite <- !C48_passthrough_tag_partial by assumption. exact E.
Qed.

(** C48. Superscript text is set as subscript. *)
Theorem C48_superscript_refuted : exists t u,
  is_html_passthrough t = true /\ is_html_passthrough u = true /\ t <> u /\
  directive_tag t = directive_tag u /\ directive_tag t <> name_of t.
Proof.
  exists dt_superscript, dt_subscript. repeat split; try reflexivity; discriminate.
Qed.

Example C48_example : directive_tag dt_heading4 = str "h4" /\ name_of dt_superscript = str "sup".
Proof. split; reflexivity. Qed.

(** * Assumptions of the theorems above *)
Print Assumptions C42_known_names_found.
Print Assumptions C42_only_known_names.
Print Assumptions C42_unknown_names_partial.
Print Assumptions C42_beyond_end_read.
Print Assumptions C42_beyond_refuted.
Print Assumptions C48_passthrough_tag_partial.
Print Assumptions C48_distinct_tags_partial.
Print Assumptions C48_superscript_refuted.
