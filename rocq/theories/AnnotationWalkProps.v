(** C60: every annotation of a source text is checked, against the construct it is written on. *)
From Coq Require Import ZArith Ascii String List Bool Lia.
From Verif Require Import Prelude Text Types Tables Tokenizer Ops OpsSpec AbsOps Annotations Literals LiteralsSpec AnnotationsSpec LinMap VM Ast Parse
  Annotated Analyze Programs AcceptedSpec NameLookup Sources Convert ConvertFacts ConvertSpec ConvertParse AnnotationWalkSpec ConvertAnnotations FrontEnd FrontEndProps.
Import ListNotations.
Open Scope string_scope.
Open Scope list_scope.
Open Scope Z_scope.

(** If the annotations of a tree resolve, each of them is known, belongs on its construct, and has the arguments it
    takes. *)
Theorem C60_accepted : forall p, Forall literal_arguments (annotations_in p) ->
  resolve_annotations p = Ok tt -> Forall valid (annotations_in p).
Proof.
  intros p W H. pose proof (check_all_spec _ W) as S. rewrite <- resolve_annotations_checks, H in S. exact S.
Qed.

(** If they do not, the error is about the first that is not valid. *)
Theorem C60_rejected : forall p e, Forall literal_arguments (annotations_in p) -> resolve_annotations p = Err e ->
  exists before x after, annotations_in p = before ++ x :: after /\ Forall valid before /\ invalid x e.
Proof.
  intros p e W H. pose proof (check_all_spec _ W) as S. rewrite <- resolve_annotations_checks, H in S. exact S.
Qed.

(** Nothing else comes of resolving them. *)
Theorem C60_total : forall p, Forall literal_arguments (annotations_in p) ->
  resolve_annotations p = Ok tt \/ exists e, resolve_annotations p = Err e.
Proof.
  intros p W. pose proof (check_all_spec _ W) as S. rewrite <- resolve_annotations_checks in S.
  destruct (resolve_annotations p) as [[]|e| |]; [auto|eauto|contradiction|contradiction].
Qed.

(** Valid annotations are accepted.  Without the restriction to lower case this is false: integer arguments with
    upper case digits are not read ([C41]). *)
Theorem C60_accepted_if_partial : forall p,
  Forall (fun x => literal_arguments x /\ lower_case_arguments x /\ valid x) (annotations_in p) ->
  resolve_annotations p = Ok tt.
Proof.
  intros p H. rewrite resolve_annotations_checks. induction H as [|x l (W & L & V) _ IH]; [reflexivity|].
  cbn [check_all]. rewrite (check_complete x W L V). exact IH.
Qed.

Theorem C60_accepted_if_refuted : exists source : string,
  source = "function g(n: Int) -> Int { @unroll(0xA) while n < 0 { } return n; } "
  /\ Forall valid (annotations_in (tree_of source))
  /\ forall run_fuel fuel, compile run_fuel fuel (str source) = Some (Err (fe_annotation ae_invalid_integer_literal)).
Proof.
  eexists. split; [reflexivity|]. split.
  - replace (annotations_in _) with [(co_while_statement, PAnn (str "unroll") [AA [] (str "0xA") tk_hexadecimal_literal])]
      by (vm_compute; reflexivity).
    constructor; [|constructor]. exists an_unroll, [0%nat], [av_int 10]. split; [reflexivity|]. split; [reflexivity|].
    split; [eapply bound_cons; [apply by_position; [reflexivity|cbn; lia|cbn; intuition lia|intros j H; lia]|constructor]|].
    split; [|intros [|[|i]] (n & k & H); try discriminate; cbn; auto].
    constructor; [|constructor]. split.
    + apply (written_int [] hexadecimal_lit (str "0xA") (str "A") 10).
      * apply (lit_hex (str "A")); [discriminate|]. constructor; [exists 10; split; [reflexivity|lia]|constructor].
      * apply (denotes_cons 16 "A"%char 10 [] 0); [reflexivity|lia|constructor].
    + exists up_to_128. split; [reflexivity|]. constructor. lia.
  - intros rf fuel. vm_compute. reflexivity.
Qed.

(** In source texts. *)
Theorem C60_source : forall run_fuel fuel source c, compile run_fuel fuel source = Some (Ok c) ->
  Forall valid (annotations_in (c_tree c)).
Proof.
  intros rf fuel source c H. destruct (compile_steps _ _ _ _ H) as (tokens & l & items & T & P & _).
  unfold compile in H. rewrite T, P in H. apply C60_accepted; [eapply parsed_annotations; eassumption|].
  unfold analyze_tree in H. destruct (convert_program (c_tree c)); try discriminate. cbn [bind] in H.
  destruct (resolve_annotations (c_tree c)) as [[]| | |]; try discriminate. reflexivity.
Qed.

Theorem C60_source_rejected : forall run_fuel fuel source e, compile run_fuel fuel source = Some (Err (fe_annotation e)) ->
  exists tokens p before x after, tokenize source = Some (Ok tokens) /\ parse (lexemes source tokens) = Some (Ok p)
    /\ annotations_in p = before ++ x :: after /\ Forall valid before /\ invalid x e.
Proof.
  intros rf fuel source e H. unfold compile in H.
  destruct (tokenize source) as [[tokens| | |]|] eqn:T; try discriminate.
  destruct (parse (lexemes source tokens)) as [[p| | |]|] eqn:P; try discriminate.
  assert (R : resolve_annotations p = Err e).
  { unfold analyze_tree in H. destruct (convert_program p) as [l| | |] eqn:C; try discriminate; cbn [bind] in H.
    - destruct (resolve_annotations p) as [[]|e'| |]; try discriminate; cbn [step_error bind] in H; [|congruence].
      destruct (name_lookup l) as [l'| | |] eqn:L; try discriminate. cbn [step_error] in H.
      destruct (analyze_program rf fuel (table_of l') (items_of l')) as [[[items st]| | |]|] eqn:A; discriminate.
    - pose proof (C56_converts_partial front_error _ _ P) as D. rewrite C in D. destruct (without_greater_or_equal p); [destruct D|]; discriminate. }
  exists tokens, p. destruct (C60_rejected p e (parsed_annotations _ _ _ T P) R) as (before & x & after & A & B & D).
  exists before, x, after. auto.
Qed.

(** A program with annotations, and two with a wrong one. *)
Definition annotated_source : string :=
  "@c_equivalent(""g"", since = 17) function g(n: Int) -> Int { @loop_variable let i = 0; " ++
  "@unroll(4) while i < n { @loop_step i = i + 1; } return i; } ".
Definition misplaced_source : string :=
  "@c_equivalent(""g"") function g(n: Int) -> Int { @unroll(4) let i = n; return i; } ".
Definition foreign_source : string := "@unroll(4) function g(n: Int) -> Int { return n; } ".
Example C60_example :
  annotations_in (tree_of annotated_source) =
    [(co_function, PAnn (str "c_equivalent") [AA [] (str "g") tk_string_literal; AA (str "since") (str "17") tk_decimal_literal]);
     (co_variable, PAnn (str "loop_variable") []);
     (co_while_statement, PAnn (str "unroll") [AA [] (str "4") tk_decimal_literal]);
     (co_assignment, PAnn (str "loop_step") [])]
  /\ (exists c, compile 100 10 (str annotated_source) = Some (Ok c))
  /\ compile 100 10 (str foreign_source) = Some (Err (fe_annotation ae_not_applicable))
  /\ compile 100 10 (str misplaced_source) = Some (Err (fe_annotation ae_not_applicable)).
Proof.
  split; [vm_compute; reflexivity|]. split; [|split; vm_compute; reflexivity].
  exists (compiled_from (compile 100 10 (str annotated_source))). apply compiled_result. vm_compute. reflexivity.
Qed.

(** * Assumptions of the theorems above *)
Print Assumptions C60_accepted.
Print Assumptions C60_rejected.
Print Assumptions C60_total.
Print Assumptions C60_accepted_if_partial.
Print Assumptions C60_accepted_if_refuted.
Print Assumptions C60_source.
Print Assumptions C60_source_rejected.
