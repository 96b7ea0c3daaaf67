(** C56 to C58: from source text to an analysed program. *)
From Coq Require Import ZArith Ascii String List Bool Lia.
From Verif Require Import Prelude Text Types Tables Tokenizer TokenizerProps Ops OpsSpec AbsOps Annotations LinMap VM VMSpec Ast Parse GrammarSpec ParseFacts
  ParseProps Codegen SourceSem CodegenSpec Annotated Analyze Programs AcceptedSpec AcceptedProps NameLookup NameLookupSpec NameLookupProps Sources PrintSpec
  Convert ConvertSpec ConvertFacts ConvertParse
  ConvertSources AnnotationWalkSpec ConvertAnnotations FrontEnd.
Import ListNotations.
Open Scope string_scope.
Open Scope list_scope.
Open Scope Z_scope.

(** The parser's tree of a source text, for examples. *)
Definition tree_of (source : string) : list pdecl :=
  match parse (tokens_of source) with Some (Ok p) => p | _ => [] end.

(** The annotations of a parsed program have literals as arguments. *)
Lemma parsed_annotations source tokens p : tokenize source = Some (Ok tokens) -> parse (lexemes source tokens) = Some (Ok p) ->
  Forall literal_arguments (annotations_in p).
Proof.
  intros T P. eapply (program_in upper); [apply lexemes_well_lexed; exact T|apply parse_sound; exact P|apply incl_refl].
Qed.

(** ** C56: The syntax tree is the parser's tree *)

(** It has the same structure, and nothing is recorded in it. *)
Theorem C56_structure : forall E p l, @convert_program E p = Ok l -> Forall2 stands_for_declaration p l.
Proof. intros E p l H. apply convert_declarations_structure in H. apply H. Qed.

(** Functions, parameters, constants and variables have identities of their own. *)
Theorem C56_identities : forall E p l, @convert_program E p = Ok l -> NoDup (identities l).
Proof. intros E p l H. apply convert_declarations_structure in H as (_ & n & _ & _ & H). exact H. Qed.

(** Full statement: every tree of the parser is converted.  It is false for programs with the operator [>=];
    it holds for all others. *)
Theorem C56_converts_partial : forall E ts p, parse ts = Some (Ok p) ->
  if without_greater_or_equal p then exists l, @convert_program E p = Ok l
  else @convert_program E p = Abort.
Proof.
  intros E ts p H. apply (convert_declarations_settled p). apply fine_program. eapply program_fine. apply parse_sound. exact H.
Qed.

Theorem C56_comparison_refuted : exists source p, parse (tokens_of source) = Some (Ok p)
  /\ source = "const x = 1 >= 2; " /\ forall E, @convert_program E p = Abort.
Proof. exists "const x = 1 >= 2; ". eexists. split; [vm_compute; reflexivity|]. split; reflexivity. Qed.

Example C56_example : exists l, @convert_program unit
    (tree_of "const y = 1; function f(x: Int) -> Int { let z = x + y; return -z; } ") = Ok l
  /\ identities l = [1; 2; 3; 4]%positive
  /\ l = [Decl_Statement (SConst None (str "y") 1 None (ELiteral None (str "1") tk_decimal_literal));
          Decl_Function (Func (str "f") 2 None [Param (str "x") 3 (Type_Node None tt_Int None None)]
            (Type_Node None tt_Int None None) None
            (SBlock None [SLet None (str "z") 4 None
                            (Some (EBinary None binary_plus (EId None (str "x") None None) (EId None (str "y") None None)));
                          SControl None ctl_return (Some (EPrefix None unary_minus (EId None (str "z") None None)))])
            false None unanalyzed)].
Proof. eexists. split; [vm_compute; reflexivity|]. split; reflexivity. Qed.

(** ** C57: Accepted source texts *)

Lemma compile_steps : forall run_fuel fuel source c, compile run_fuel fuel source = Some (Ok c) ->
  exists tokens l items, tokenize source = Some (Ok tokens) /\ parse (lexemes source tokens) = Some (Ok (c_tree c))
    /\ @convert_program front_error (c_tree c) = Ok l /\ name_lookup l = Ok (c_declarations c)
    /\ analyze_program run_fuel fuel (table_of (c_declarations c)) (items_of (c_declarations c)) = Some (Ok (items, c_state c)).
Proof.
  intros rf fuel source c H. unfold compile in H.
  destruct (tokenize source) as [[tokens| | |]|] eqn:T; try discriminate.
  destruct (parse (lexemes source tokens)) as [[p| | |]|] eqn:P; try discriminate.
  unfold analyze_tree in H. destruct (convert_program p) as [l| | |] eqn:C; try discriminate. cbn [bind] in H.
  destruct (resolve_annotations p) as [[]| | |]; try discriminate. cbn [step_error bind] in H.
  destruct (name_lookup l) as [l'| | |] eqn:L; try discriminate. cbn [step_error] in H.
  destruct (analyze_program rf fuel (table_of l') (items_of l')) as [[[items st]| | |]|] eqn:A; try discriminate.
  cbn in H. injection H as <-. exists tokens, l, items. cbn. auto.
Qed.

(** If a source text is accepted, and its functions are simple, then it is a program as the theorems about
    accepted programs ([AcceptedProps]) require it. *)
Theorem C57_accepted_partial : forall run_fuel fuel source c, compile run_fuel fuel source = Some (Ok c) ->
  simple_program (c_tree c) = true -> no_generics (c_tree c) ->
  exists consts, passes consts (table_of (c_declarations c)) (items_of (c_declarations c)) (c_state c).
Proof.
  intros rf fuel source c H S G. destruct (compile_steps _ _ _ _ H) as (tokens & l & items & T & P & C & L & A).
  apply convert_declarations_structure in C as (St & n & _ & _ & D).
  exists (constants_in l). eapply C31_ready_partial; [|exact L| |eauto].
  - eapply converted_source; [|exact S|exact St|exact D]. eapply program_fine. apply parse_sound. exact P.
  - eapply converted_not_generic; eassumption.
Qed.

(** Running a function of an accepted source text.  The machine that runs its code stops with the value of the
    call, in the meaning of SourceSem.v, or it reports the error of the call, or it runs forever if the call
    does; and it does not get stuck unless the call does.
    Missing: programs that need implicit conversions, generic functions, [requires] clauses, calls in types of
    parameters, functions that do not end in [return]. *)
Theorem C57_run_partial : forall run_fuel fuel source c, compile run_fuel fuel source = Some (Ok c) ->
  simple_program (c_tree c) = true -> no_generics (c_tree c) -> direct_program (c_state c) ->
  forall n f t args m, analysed_function (c_state c) n f t -> about_to_run (c_state c) f args m ->
  (forall k v, meaning (c_state c) (S k) n args = Some (Ok v) ->
     wf_value v /\ cv_type v = t
     /\ exists j x, run j m = Some (Err x) /\ ee_code x = x_pop_call /\ vm_stack (ee_machine x) = [v])
  /\ (forall k e code, meaning (c_state c) (S k) n args = Some (Err e) -> reported e = Some code ->
       exists j x, run j m = Some (Err x) /\ ee_code x = code)
  /\ ((forall k, meaning (c_state c) (S k) n args = None) -> forall j, run j m = None)
  /\ (forall j, run j m = Some Abort \/ run j m = Some UB ->
       exists k r, meaning (c_state c) k n args = Some r /\ ~ defined r).
Proof.
  intros rf fuel source c H S G D n f t args m Hf Hm. destruct (C57_accepted_partial _ _ _ _ H S G) as (consts & P).
  split; [|split; [|split]].
  - intros k v M. destruct (C26_accepted_value_partial _ _ _ _ P D k n f args m v (proj1 Hf) Hm M) as (j & x & R & C & V).
    pose proof (C21_accepted_partial _ _ _ _ P D n f t args m j _ Hf Hm R) as Q. cbn beta iota in Q.
    destruct Q as [(_ & w & W & Q1 & Q2)|[Q|(e & Q & _)]]; [|congruence|congruence].
    rewrite V in W. injection W as <-. split; [exact Q1|]. split; [exact Q2|]. exists j, x. auto.
  - intros k e code M R. exact (C26_accepted_error_partial _ _ _ _ P D k n f args m e code (proj1 Hf) Hm M R).
  - intros M. exact (C25_accepted_diverges_partial _ _ _ _ P D n f args m (proj1 Hf) Hm M).
  - intros j [R|R]; exact (C21_accepted_partial _ _ _ _ P D n f t args m j _ Hf Hm R).
Qed.

(** The program of the examples, from its text. *)
Definition example_source : string :=
  "function sum(n: Int) -> Int { let s = 0; let i = 0; while i < n { s = s + i; i = i + 1; } return s; } " ++
  "function twice(b: Bool, x: Uint(8)) -> Uint(8) { if b { return x + x; } return sum(3 * 2) as Uint(8); } " ++
  "const y = sum(4); const z: Uint(8) = twice(true, 200 as Uint(8)); " ++
  "static_assert(twice(false, z) == (15 as Uint(8))); ".
Definition compiled_from (r : option (outcome front_error compiled)) : compiled :=
  match r with Some (Ok c) => c | _ => Compiled [] [] (State (fun _ => None) (fun _ => None) vm_new []) end.
Lemma compiled_result : forall r, match r with Some (Ok _) => true | _ => false end = true -> r = Some (Ok (compiled_from r)).
Proof. intros [[c| | |]|] H; try discriminate. reflexivity. Qed.
Definition example_tree : list pdecl := Eval vm_compute in tree_of example_source.
Definition example_compiled : compiled := compiled_from (compile 1000 20 (str example_source)).
Example C57_example : compile 1000 20 (str example_source) = Some (Ok example_compiled)
  /\ simple_program (c_tree example_compiled) = true /\ no_generics (c_tree example_compiled)
  /\ st_values (c_state example_compiled) 8%positive = Some (AV TInt (Some 6))
  /\ st_values (c_state example_compiled) 9%positive = Some (AV (TUint 8) (Some 144))
  /\ meaning (c_state example_compiled) 20 5 [cv_True; CV (TUint 8) 200] = Some (Ok (CV (TUint 8) 144)).
Proof.
  split; [apply compiled_result; vm_compute; reflexivity|]. split; [vm_compute; reflexivity|]. split; [|vm_compute; auto].
  intros f q k x I Q T.
  assert (E : c_tree example_compiled = example_tree) by (vm_compute; reflexivity). rewrite E in I. cbn in I.
  repeat (destruct I as [I|I]; [try discriminate I; injection I as <-; cbn in Q;
    repeat (destruct Q as [Q|Q]; [subst q; discriminate T|]); destruct Q|]). destruct I.
Qed.

(** ** C58: The front end answers *)

Lemma stands_no_calls p : forall e, stands_for p e -> every no_call p = true -> no_calls e = true.
Proof.
  induction p using pexpr_induction; intros e' G U; rewrite every_intro in U; inversion G; subst; cbn [no_calls];
    apply andb_prop in U as [U0 U].
  - apply andb_prop in U as [U1 U2].
    match goal with T : stands_for_type _ _ |- _ => inversion T; subst end; erewrite IHp by eassumption; cbn in *; [reflexivity|].
    rewrite andb_true_r in U2. auto.
  - apply andb_prop in U as [U U3]. apply andb_prop in U as [U1 U2].
    erewrite IHp1, IHp2, IHp3 by eassumption. reflexivity.
  - apply andb_prop in U as [U1 U2]. erewrite IHp1, IHp2 by eassumption. reflexivity.
  - eapply IHp; eassumption.
  - discriminate.
  - reflexivity.
  - reflexivity.
Qed.
Lemma converted_lookup : forall p l, Forall fine_declaration p -> Forall2 stands_for_declaration p l ->
  plain_parameters p = true -> defined (name_lookup l).
Proof.
  intros p l F S P. apply C31_defined_partial. revert F P.
  induction S as [|x y p l H _ IH]; intros F P; [constructor|].
  inversion F as [|? ? F1 F2]; subst. cbn [plain_parameters forallb] in P. apply andb_prop in P as [P1 P2].
  constructor; [|apply IH; assumption]. inversion H as [q f Hf|q s Hs]; subst.
  - split; [reflexivity|]. inversion Hf as [x0 n an qs ts qt t pr e ps ss Hq]; subst. cbn [plain_widths f_params]. cbn [pf_parameters] in P1.
    clear - Hq P1. induction Hq as [|a b qs ts H _ IH]; [reflexivity|]. cbn [flat_map forallb] in *.
    rewrite forallb_app in P1. apply andb_prop in P1 as [A B]. rewrite (IH B), andb_true_r.
    inversion H as [x q t n Ht]; subst. cbn [p_type]. cbn [pp_type] in A. inversion Ht as [k|k p e He]; subst; [reflexivity|].
    cbn in A. rewrite andb_true_r in A. exact (stands_no_calls p e He A).
  - split; [|reflexivity]. destruct F1 as [_ F1]. destruct q; try contradiction; inversion Hs; subst; reflexivity.
Qed.

(** Full statement: the front end finishes for every source text with a program or an error.
    Proved here: for source texts that do not end with a slash, in which [!] and [&&] are at least three
    characters from the end, in which no annotation has malformed arguments, and that have neither [>=] nor
    calls in the widths of parameter types, every step before the analysis does.
    Missing: the analysis ([C20_…] and [C25_…]); it is refuted without the other conditions. *)
Theorem C58_answers_partial : forall source,
  (forall i r, skipn i source = str "!" ++ r -> (i + 3 <= length source)%nat) ->
  (forall i r, skipn i source = str "&&" ++ r -> (i + 3 <= length source)%nat) ->
  (forall a, source <> a ++ ["/"%char]) ->
  (forall tokens, tokenize source = Some (Ok tokens) -> ~ malformed_annotation (lexemes source tokens)) ->
  (forall tokens p, tokenize source = Some (Ok tokens) -> parse (lexemes source tokens) = Some (Ok p) ->
     without_greater_or_equal p = true /\ plain_parameters p = true) ->
  (exists e, forall run_fuel fuel, compile run_fuel fuel source = Some (Err e))
  \/ exists p l, forall run_fuel fuel,
       match analyze_program run_fuel fuel (table_of l) (items_of l) with
       | None => compile run_fuel fuel source = None
       | Some (Ok (_, st)) => compile run_fuel fuel source = Some (Ok (Compiled p l st))
       | Some (Err e) => compile run_fuel fuel source = Some (Err (fe_analysis e))
       | Some Abort => compile run_fuel fuel source = Some Abort
       | Some UB => compile run_fuel fuel source = Some UB
       end.
Proof.
  intros source H1 H2 H3 H4 H5. destruct (C18_total_partial source H1 H2 H3) as (r & T & R).
  unfold compile. rewrite T. destruct r as [tokens|e| |]; try contradiction; [|eauto].
  destruct (C53_answers_partial source tokens T) as [(p & P)|[(e & before & P & _)|(_ & B)]];
    [|rewrite P; eauto|exfalso; exact (H4 tokens T B)].
  rewrite P. destruct (H5 tokens p T P) as [G W]. pose proof (C56_converts_partial front_error _ _ P) as C. rewrite G in C.
  destruct C as (l & C). unfold analyze_tree. rewrite C. cbn [bind].
  assert (F : Forall fine_declaration p) by (eapply program_fine, parse_sound; exact P).
  assert (A : defined (resolve_annotations p)).
  { rewrite resolve_annotations_checks. pose proof (check_all_spec _ (parsed_annotations _ _ _ T P)) as A.
    destruct (check_all (annotations_in p)) as [[]| | |]; try contradiction; exact Logic.I. }
  pose proof (converted_lookup p l F (C56_structure _ _ _ C) W) as N.
  destruct (resolve_annotations p) as [[]|e| |]; try contradiction; cbn [step_error bind]; [|eauto].
  destruct (name_lookup l) as [l'|e| |]; try contradiction; cbn [step_error]; [|eauto].
  right. exists p, l'. intros rf fuel. destruct (analyze_program rf fuel (table_of l') (items_of l')) as [[[items st]| | |]|]; reflexivity.
Qed.

(** Source texts without [!], [&] and [@]. *)
Lemma token_then_in : forall ts k x rest, token_then ts k x rest -> In (k, x) ts.
Proof. induction 1; cbn; auto. Qed.
Lemma malformed_needs_at : forall ts, malformed_annotation ts -> exists x, In (tk_at, x) ts.
Proof.
  intros ts (before & here & r1 & name & r2 & r3 & -> & (x & H) & _). exists x. apply in_or_app. right.
  eapply token_then_in. exact H.
Qed.
Lemma starts_in : forall (s : text) i c r, skipn i s = c :: r -> In c s.
Proof. intros s i c r H. rewrite <- (firstn_skipn i s), H. apply in_or_app. right. left. reflexivity. Qed.
Example C58_example : exists (source : text) p l, source = str "function f(x: Int) -> Int { return x + 1; } const y = f(1); "
  /\ ((exists e, forall run_fuel fuel, compile run_fuel fuel source = Some (Err e))
      \/ forall run_fuel fuel,
       match analyze_program run_fuel fuel (table_of l) (items_of l) with
       | None => compile run_fuel fuel source = None
       | Some (Ok (_, st)) => compile run_fuel fuel source = Some (Ok (Compiled p l st))
       | Some (Err e) => compile run_fuel fuel source = Some (Err (fe_analysis e))
       | Some Abort => compile run_fuel fuel source = Some Abort
       | Some UB => compile run_fuel fuel source = Some UB
       end)
  /\ match compile 100 10 source with Some (Ok c) => st_values (c_state c) 3%positive = Some (AV TInt (Some 2)) | _ => False end.
Proof.
  set (source := str "function f(x: Int) -> Int { return x + 1; } const y = f(1); "). exists source.
  destruct (C58_answers_partial source) as [H|(p & l & H)].
  - intros i r H. apply starts_in in H. vm_compute in H. repeat (destruct H as [H|H]; [discriminate H|]). destruct H.
  - intros i r H. apply starts_in in H. vm_compute in H. repeat (destruct H as [H|H]; [discriminate H|]). destruct H.
  - intros a H. apply (f_equal (fun s => last s " "%char)) in H. rewrite last_last in H. discriminate H.
  - intros tokens T M. apply malformed_needs_at in M as (x & M). apply in_map_iff in M as (t & E & I).
    assert (F : forallb (fun t => negb (token_type_eqb (tok_type t) tk_at))
                  (match tokenize source with Some (Ok ts) => ts | _ => [] end) = true) by (vm_compute; reflexivity).
    rewrite T in F. rewrite forallb_forall in F. apply F in I. injection E as E _. rewrite E in I. discriminate I.
  - intros tokens p T P.
    assert (F : match tokenize source with
                | Some (Ok ts) => match parse (lexemes source ts) with
                                  | Some (Ok p) => without_greater_or_equal p && plain_parameters p
                                  | _ => false
                                  end
                | _ => false
                end = true) by (vm_compute; reflexivity).
    rewrite T, P in F. apply andb_prop in F. exact F.
  - exists [], []. split; [reflexivity|]. split; [left; exact H|]. vm_compute. reflexivity.
  - exists p, l. split; [reflexivity|]. split; [right; exact H|]. vm_compute. reflexivity.
Qed.

(** Without those conditions the front end fails in other ways. *)
Theorem C58_tokenizer_refuted : forall run_fuel fuel, compile run_fuel fuel "!a" = Some Abort.
Proof. reflexivity. Qed.
Theorem C58_annotation_refuted : forall run_fuel fuel, compile run_fuel fuel "@inline(1 " = Some Abort.
Proof. reflexivity. Qed.
Theorem C58_conversion_refuted : forall run_fuel fuel, compile run_fuel fuel "const x = 1 >= 2; " = Some Abort.
Proof. reflexivity. Qed.
Theorem C58_parameter_refuted : exists source, (forall run_fuel fuel, compile run_fuel fuel source = Some Abort)
  /\ source = "function f(x: Uint(g(1))) -> Int { return 1; } ".
Proof. eexists. split; [|reflexivity]. intros. vm_compute. reflexivity. Qed.
Theorem C58_analysis_refuted : exists source, (forall run_fuel fuel, compile run_fuel (S (S (S fuel))) source = Some Abort)
  /\ source = "const x = 256 as Uint(8); ".
Proof. eexists. split; [|reflexivity]. intros. vm_compute. reflexivity. Qed.
Theorem C58_recursion_refuted : exists source, (forall run_fuel fuel, compile run_fuel (S (S (S fuel))) source = Some UB)
  /\ source = "function f(x: Int) -> Int { return f(x); } ".
Proof. eexists. split; [|reflexivity]. intros. vm_compute. reflexivity. Qed.

(** And it does not finish: the type of a parameter of [f] depends on a call of [f]. *)
Definition endless : string := "function f(x: Uint(f(1))) -> Int { return 1; } ".
Definition endless_tree : list pdecl := Eval vm_compute in tree_of endless.
Definition endless_tokens : list token :=
  Eval vm_compute in match tokenize endless with Some (Ok ts) => ts | _ => [] end.
Definition endless_declarations : list declaration :=
  Eval vm_compute in match @convert_program unit endless_tree with
                     | Ok l => match name_lookup l with Ok l' => l' | _ => [] end
                     | _ => []
                     end.
Lemma bind_stops {A B} (x : M A) (f : A -> M B) st : x st = None -> mbind x f st = None.
Proof. intros H. unfold mbind. rewrite H. reflexivity. Qed.
Lemma bind_goes_on {A B} (x : M A) (f : A -> M B) st a st' : x st = Some (Ok (a, st')) -> f a st' = None -> mbind x f st = None.
Proof. intros H. unfold mbind. rewrite H. auto. Qed.
Definition at_endless (st : state) : Prop := st_functions st = table_of endless_declarations /\ st_stack st = [].
Lemma endless_body : forall callee run_fuel,
  (forall lv st, at_endless st -> callee 1%positive lv st = None \/ lv = unanalyzed) ->
  forall lv st, at_endless st -> an_function_body callee run_fuel 1 lv st = None \/ lv = unanalyzed.
Proof.
  intros callee rf H lv [T V m cur] [E C]. cbn in E, C. subst T cur.
  enough (G : lv <> unanalyzed -> an_function_body callee rf 1 lv (State (table_of endless_declarations) V m []) = None)
    by (destruct lv; auto; left; apply G; discriminate).
  intros L. unfold an_function_body. eapply bind_goes_on; [reflexivity|].
  eapply bind_goes_on; [destruct lv; [congruence| | |]; reflexivity|].
  destruct lv; [congruence| | |]; do 2 (match goal with |- (if ?b then _ else _) _ = _ => change b with false end; cbv iota);
    (apply bind_stops; apply bind_stops; apply bind_stops; cbn [an_expr];
     eapply bind_goes_on; [reflexivity|]; eapply bind_goes_on; [reflexivity|]; apply bind_stops; unfold an_call;
     eapply bind_goes_on; [reflexivity|]; eapply bind_goes_on; [reflexivity|]; do 2 (match goal with |- (if ?b then _ else _) _ = _ => change b with false end; cbv iota);
     eapply bind_goes_on; [reflexivity|]; (match goal with |- (if ?b then _ else _) _ = _ => change b with false end; cbv iota); apply bind_stops;
     destruct (H for_constant_evaluation (State (table_of endless_declarations) V m [])) as [R|R];
       [split; reflexivity|exact R|discriminate R]).
Qed.
Theorem C58_endless_refuted : exists source, (forall run_fuel fuel, compile run_fuel fuel source = None)
  /\ source = "function f(x: Uint(f(1))) -> Int { return 1; } ".
Proof.
  exists endless. split; [|reflexivity]. intros rf fuel.
  assert (H : forall lv st, at_endless st -> an_function rf fuel 1 lv st = None \/ lv = unanalyzed).
  { induction fuel as [|fuel IH]; intros lv st E; [left; reflexivity|]. apply endless_body; assumption. }
  assert (C : exists p l, compile rf fuel endless =
    match analyze_program rf fuel (table_of l) (items_of l) with
    | None => None
    | Some o => Some (let* '(_, st) := step_error fe_analysis o in Ok (Compiled p l st))
    end /\ l = endless_declarations).
  { assert (T : exists tokens, tokenize endless = Some (Ok tokens) /\ parse (lexemes endless tokens) = Some (Ok endless_tree))
      by (exists endless_tokens; split; vm_compute; reflexivity).
    destruct T as (tokens & T & P). unfold compile. rewrite T, P. exists endless_tree, endless_declarations.
    split; reflexivity. }
  destruct C as (p & l & -> & ->). unfold analyze_program. change (items_of endless_declarations) with [Item_Function 1].
  cbn [an_items]. rewrite bind_stops; [reflexivity|].
  destruct (H full (State (table_of endless_declarations) (fun _ => None) vm_new [])) as [R|R]; [split; reflexivity|exact R|discriminate R].
Qed.

(** * Assumptions of the theorems above *)
Print Assumptions C56_structure.
Print Assumptions C56_identities.
Print Assumptions C56_converts_partial.
Print Assumptions C56_comparison_refuted.
Print Assumptions C57_accepted_partial.
Print Assumptions C57_run_partial.
Print Assumptions C58_answers_partial.
Print Assumptions C58_tokenizer_refuted.
Print Assumptions C58_annotation_refuted.
Print Assumptions C58_conversion_refuted.
Print Assumptions C58_parameter_refuted.
Print Assumptions C58_analysis_refuted.
Print Assumptions C58_recursion_refuted.
Print Assumptions C58_endless_refuted.
