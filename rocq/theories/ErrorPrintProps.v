(** C68: every error of the analysis can be printed. *)
From Coq Require Import ZArith Ascii String List Bool Lia.
From Verif Require Import Prelude Types Ops Text Tables Decimal AbsOps Tokenizer TokenizerSpec VM Annotations
  Diagnostics DiagnosticsSpec DiagnosticsProofs ErrorPrint ErrorPrintSpec ErrorPrintProofs.
From Verif Require LiteralsProofs DecimalSpec Codegen NameLookup Analyze FrontEnd.
Import ListNotations.
Open Scope string_scope.
Open Scope list_scope.
Open Scope nat_scope.

(** ** C68: Every error of the analysis can be printed *)

(** Full statement: for every error that the analysis reports, the printer shows the place of the failure,
    the cause if there is one, and what went wrong.  It is false, see the refutations.  Proved: exactly which
    errors can be printed, and that what is printed shows the above; that the errors of all places in the
    code that build one can be printed, except for two places.

    In sources with fewer than 99999 lines; the places of an error begin at a character of the source. *)

Lemma notice_parts : forall y a n b r, shows y [] -> shows r [] ->
  shows (y ++ a ++ n ++ b ++ n ++ r) (([] : text) ++ a ++ n ++ b ++ n ++ []).
Proof. intros y a n b r Y R. apply shows_hidden; [exact Y|]. cbn [app]. do 4 apply shows_same. exact R. Qed.
Lemma notice_shown : forall colors, shows (internal_error_notice colors) (internal_error_notice false).
Proof.
  intros colors. unfold internal_error_notice. apply notice_parts; apply shows_color; [apply escape_h_yellow|apply escape_reset].
Qed.

Lemma internal_iff : forall e, printable e -> (is_internal e = true <-> unexpected e).
Proof.
  intros e P. destruct (pr_code e P) as (A & B & C). unfold is_internal, unexpected, code_of.
  destruct (ae_code e) as [c|x|x|]; split; intros H; try discriminate H; try congruence.
  - destruct H as [H|H]; [destruct c; congruence|discriminate H].
  - right. destruct x; try discriminate H. reflexivity.
  - destruct H as [H|H]; [discriminate H|]. injection H as ->. reflexivity.
  - left. reflexivity.
Qed.

Theorem C68_print_partial : forall E file source e colors,
  few_lines source -> in_memory source -> in_source source e -> printable e ->
  exists out l notice, @print_analysis_error E file source e colors = Ok out /\
    tells file source l notice out /\ about e l /\ (notice <> [] <-> unexpected e).
Proof.
  intros E file source e colors F M I P. unfold print_analysis_error.
  destruct (made E e P) as (l & b & H & L & A & B). rewrite H. cbn [bind fst snd].
  destruct (lines_ok E file source colors l F M (lines_placed source e l I L)) as (out & parts & O & S0 & T).
  rewrite O. cbn [bind]. eexists. exists (map told_of l), (if b then internal_error_notice false else []).
  split; [reflexivity|]. split; [|split; [exact A|rewrite <- (internal_iff e P), <- B; destruct b; split; solve [reflexivity|discriminate|congruence]]].
  exists parts. split; [|exact T]. apply shows_app; [exact S0|]. destruct b; [|constructor].
  apply notice_shown.
Qed.

(** Nothing else can be printed. *)
Theorem C68_print_only : forall E file source e colors out,
  @print_analysis_error E file source e colors = Ok out -> printable e.
Proof.
  intros E file source e colors out H. unfold print_analysis_error in H.
  destruct (@make_error_printable E e) as [p| | |] eqn:P; try discriminate H. exact (made_only E e p P).
Qed.

(** The errors that are built can be printed, except those of two places. *)
Lemma error_at_ok : forall E c f k e, @error_at E c f k = Ok e ->
  e = AnalysisError (d_plain c) ex_none f k None None /\ c <> ac_evaluation_error /\ c <> ac_execution_error.
Proof.
  intros E c f k e H. unfold error_at in H. destruct c; try discriminate H; injection H as <-;
    (split; [reflexivity|split; discriminate]).
Qed.

Theorem C68_sites_defined : forall E s, exists e, @site_error E s = Ok e.
Proof.
  intros E s. destruct s; cbn [site_error]; try (destruct e); cbn; try (eexists; reflexivity);
    try (destruct comparison; eexists; reflexivity).
Qed.

Theorem C68_sites_partial : forall E s e, @site_error E s = Ok e -> reached s -> ~ hopeless s -> printable e.
Proof.
  intros E s e H R N.
  destruct s; cbn [site_error bind error_at] in H; cbn [reached hopeless] in *;
    try (destruct e0; cbn in H);
    try (destruct comparison); 
    try (injection H as <-); try contradiction;
    try (constructor; cbn;
      [split; [discriminate|split; discriminate]
      |discriminate
      |first [discriminate | intros _; eexists; split; [reflexivity|exact R]]
      |first [discriminate | intros; left; reflexivity | intros; right; reflexivity]]).
  all: destruct c; try (exfalso; apply N; exact Logic.I).
  all: constructor; cbn; [split; [discriminate|split; discriminate]|discriminate|discriminate|discriminate].
Qed.

(** Together: what is printed for an error of any other place. *)
Theorem C68_error_partial : forall E file source s colors,
  few_lines source -> in_memory source -> reached s -> ~ hopeless s ->
  exists e, @site_error E s = Ok e /\ (in_source source e ->
    exists out l notice, @print_analysis_error E file source e colors = Ok out /\
      tells file source l notice out /\ about e l).
Proof.
  intros E file source s colors F M R N. destruct (C68_sites_defined E s) as (e & H). exists e. split; [exact H|].
  intros I. destruct (C68_print_partial E file source e colors F M I (C68_sites_partial E s e H R N))
    as (out & l & notice & O & T & A & _). exists out, l, notice. auto.
Qed.

(** In particular, an error of an evaluation at run time is reported at the call, and its reason at the place
    of the operation; the developers are addressed if it is an error of types. *)
Theorem C68_execution_partial : forall E file source x call i colors,
  few_lines source -> in_memory source ->
  (forall p, di_pos i = Some p -> shown_place source p) -> shown_place source (pl_pos call) ->
  exists e out l notice r, @site_error E (st_execution (x_evaluation x) None call i) = Ok e /\
    @print_analysis_error E file source e colors = Ok out /\ tells file source l notice out /\
    In (Told "error" (Some (begin (pl_pos call))) (analysis_prose ac_evaluation_error) true) l /\
    In (Told "note" (place_of i) (str "Caused by: " ++ evaluation_prose x ++ r) true) l /\
    (notice <> [] <-> x = type_error).
Proof.
  intros E file source x call i colors F M I C.
  destruct (C68_sites_defined E (st_execution (x_evaluation x) None call i)) as (e & H).
  assert (P : printable e) by (apply (C68_sites_partial E _ e H); first [exact Logic.I|exact (fun x => x)]).
  pose proof H as H0. cbn in H0. injection H0 as <-.
  assert (J : in_source source (execution_error_at (x_evaluation x) None (node dc_function_call_expression call) (Some i))).
  { intros d p D Q. cbn in D. destruct D as [->|D]; [cbn in Q|]; injection Q as <- || idtac; [exact C|].
    assert (X : i = d) by congruence. subst d. exact (I p Q). }
  destruct (C68_print_partial E file source _ colors F M J P) as (out & l & notice & O & T & A & N).
  destruct (ab_reason _ _ A x i eq_refl eq_refl ltac:(discriminate)) as (r & R).
  destruct (ab_code _ _ A ltac:(discriminate) eq_refl) as (notes & L).
  eexists _, out, l, notice, r. split; [exact H|]. split; [exact O|]. split; [exact T|].
  split; [rewrite L; left; reflexivity|]. split; [exact R|]. rewrite N. unfold unexpected. cbn. split.
  - intros [Z|Z]; [discriminate Z|congruence].
  - intros ->. right. reflexivity.
Qed.

(** A diagnostic says which error it is: different errors have different messages. *)
Definition all_codes : list error_code :=
  [ac_failed_to_define_global_const; ac_failed_to_define_function; ac_failed_to_define_parameter; ac_failed_to_define_variable;
   ac_reference_to_undefined_variable; ac_assignment_of_undefined_variable; ac_call_to_undefined_function; ac_width_not_integer;
   ac_width_invalid; ac_expected_constant_expression; ac_let_variable_in_constant_expression; ac_parameter_in_constant_expression;
   ac_function_in_expression; ac_execution_error; ac_evaluation_error; ac_condition_not_bool;
   ac_invalid_integer_literal; ac_assigning_parameter; ac_assigning_function; ac_assigning_const;
   ac_call_non_function; ac_wrong_number_of_arguments; ac_codegen_call_to_unanalyzed; ac_width_deduction_from_non_uint;
   ac_static_assert_expression_not_bool; ac_static_assertion_failed; ac_requires_clause_not_bool; ac_requires_clause_not_satisfied;
   ac_use_of_undefined_variable; ac_use_of_undefined_constant; ac_empty_return_in_non_void_function; ac_invalid_operator;
   ac_void_operation; ac_bool_arithmetic; ac_bool_bitwise; ac_bool_relational_comparison;
   ac_int_bitwise; ac_int_logical; ac_uint_logical; ac_non_bool_logical;
   ac_incompatible_types; ac_incompatible_widths; ac_wrong_argument_type; ac_break_outside_loop;
   ac_continue_outside_loop; ac_annotation_unknown; ac_annotation_not_applicable; ac_annotation_too_many_arguments;
   ac_annotation_unknown_parameter; ac_annotation_argument_duplicate; ac_annotation_argument_wrong_type; ac_annotation_argument_wrong_value;
   ac_annotation_missing_argument].
Definition code_for (t : text) : option error_code := find (fun c => text_eqb (analysis_prose c) t) all_codes.
Lemma code_for_prose : forall c, code_for (analysis_prose c) = Some c.
Proof. intros []; vm_compute; reflexivity. Qed.
Theorem C68_messages : forall c c', analysis_prose c = analysis_prose c' -> c = c'.
Proof. intros c c' H. pose proof (code_for_prose c) as X. rewrite H, code_for_prose in X. congruence. Qed.

Theorem C68_causes : forall e e', evaluation_prose e = evaluation_prose e' -> e = e'.
Proof. intros [] []; try reflexivity; discriminate. Qed.

(** Every error of the modelled analysis is one of a place above. *)
Definition reported_code (e : FrontEnd.front_error) : option detailed_code :=
  match e with
  | FrontEnd.fe_tokenize _ | FrontEnd.fe_parse _ => None
  | FrontEnd.fe_annotation a => Some (d_plain
      match a with
      | ae_invalid_integer_literal => ac_invalid_integer_literal
      | ae_unknown => ac_annotation_unknown
      | ae_not_applicable => ac_annotation_not_applicable
      | ae_unknown_parameter => ac_annotation_unknown_parameter
      | ae_argument_duplicate => ac_annotation_argument_duplicate
      | ae_argument_wrong_type => ac_annotation_argument_wrong_type
      | ae_argument_wrong_value => ac_annotation_argument_wrong_value
      | ae_missing_argument => ac_annotation_missing_argument
      | ae_too_many_arguments => ac_annotation_too_many_arguments
      end)
  | FrontEnd.fe_lookup l => Some (d_plain
      match NameLookup.le_code l with
      | NameLookup.failed_to_define_global_const => ac_failed_to_define_global_const
      | NameLookup.failed_to_define_function => ac_failed_to_define_function
      | NameLookup.failed_to_define_parameter => ac_failed_to_define_parameter
      | NameLookup.failed_to_define_variable => ac_failed_to_define_variable
      | NameLookup.reference_to_undefined_variable => ac_reference_to_undefined_variable
      | NameLookup.assignment_of_undefined_variable => ac_assignment_of_undefined_variable
      | NameLookup.call_to_undefined_function => ac_call_to_undefined_function
      end)
  | FrontEnd.fe_analysis a =>
      match a with
      | Analyze.a_type t => Some (d_plain (code_of_check t))
      | Analyze.a_evaluation x | Analyze.a_execution (x_evaluation x) => Some (d_evaluation x)
      | Analyze.a_execution _ => Some d_execution_lost
      | Analyze.a_codegen _ | Analyze.a_call_to_unanalyzed => Some (d_plain ac_codegen_call_to_unanalyzed)
      | Analyze.a_requires_clause_not_bool => Some (d_plain ac_requires_clause_not_bool)
      | Analyze.a_requires_clause_not_satisfied => Some (d_plain ac_requires_clause_not_satisfied)
      | Analyze.a_width_not_integer => Some (d_plain ac_width_not_integer)
      | Analyze.a_width_invalid => Some (d_plain ac_width_invalid)
      | Analyze.a_incompatible_types => Some (d_plain ac_incompatible_types)
      | Analyze.a_static_assert_expression_not_bool => Some (d_plain ac_static_assert_expression_not_bool)
      | Analyze.a_static_assertion_failed => Some (d_plain ac_static_assertion_failed)
      | Analyze.a_condition_not_bool => Some (d_plain ac_condition_not_bool)
      | Analyze.a_break_outside_loop => Some (d_plain ac_break_outside_loop)
      | Analyze.a_continue_outside_loop => Some (d_plain ac_continue_outside_loop)
      | Analyze.a_empty_return_in_non_void_function => Some (d_plain ac_empty_return_in_non_void_function)
      | Analyze.a_assigning_parameter => Some (d_plain ac_assigning_parameter)
      | Analyze.a_assigning_function => Some (d_plain ac_assigning_function)
      | Analyze.a_assigning_const => Some (d_plain ac_assigning_const)
      | Analyze.a_non_bool_logical => Some (d_plain ac_non_bool_logical)
      | Analyze.a_call_non_function => Some (d_plain ac_call_non_function)
      | Analyze.a_wrong_number_of_arguments => Some (d_plain ac_wrong_number_of_arguments)
      | Analyze.a_parameter_in_constant_expression => Some (d_plain ac_parameter_in_constant_expression)
      | Analyze.a_let_variable_in_constant_expression => Some (d_plain ac_let_variable_in_constant_expression)
      | Analyze.a_function_in_expression => Some (d_plain ac_function_in_expression)
      | Analyze.a_use_of_undefined_variable => Some (d_plain ac_use_of_undefined_variable)
      | Analyze.a_use_of_undefined_constant => Some (d_plain ac_use_of_undefined_constant)
      | Analyze.a_invalid_integer_literal => Some (d_plain ac_invalid_integer_literal)
      | Analyze.outside_model => None
      end
  end.

Definition nowhere : place := Place (Pos 0 0 0) [].
Definition no_node : any_node := AnyNode dc_literal nowhere.
Definition no_declaration : declared := declared_node no_node.
Definition some_sites : list site :=
  [st_requires_not_bool no_node nowhere; st_requires_not_satisfied no_node nowhere; st_width_not_integer no_node;
   st_width_invalid no_node 0; st_const_incompatible nowhere no_node; st_static_assert_not_bool nowhere no_node;
   st_static_assertion_failed nowhere no_node None; st_if_condition nowhere no_node; st_break_outside_loop nowhere;
   st_continue_outside_loop nowhere; st_empty_return nowhere nowhere; st_assigning_parameter nowhere no_declaration;
   st_assigning_function nowhere nowhere; st_assigning_const nowhere nowhere; st_non_bool_logical nowhere no_node;
   st_call_non_function nowhere no_node; st_wrong_number_of_arguments nowhere nowhere;
   st_call_to_unanalyzed nowhere nowhere; st_parameter_in_constant nowhere no_declaration;
   st_function_in_expression nowhere nowhere; st_let_in_constant nowhere nowhere; st_undefined_variable nowhere nowhere;
   st_undefined_constant nowhere nowhere; st_invalid_literal nowhere; st_define_global_const nowhere no_declaration;
   st_define_function nowhere no_declaration; st_define_parameter nowhere no_declaration;
   st_define_variable nowhere no_declaration; st_assign_undefined nowhere; st_call_undefined nowhere;
   st_reference_undefined nowhere; st_annotation_missing nowhere []; st_annotation_too_many nowhere nowhere;
   st_annotation_duplicate nowhere nowhere; st_annotation_unknown_parameter nowhere nowhere;
   st_annotation_unknown nowhere no_node; st_annotation_not_applicable nowhere no_node;
   st_argument_wrong_type nowhere nowhere [] pt_integer pt_string;
   st_argument_wrong_value nowhere nowhere [] pt_integer pt_integer].
Definition raised (c : detailed_code) : Prop :=
  exists s e, @site_error unit s = Ok e /\ reached s /\ ae_code e = c.
Lemma raised_plain : forall c,
  existsb (fun s => match @site_error unit s with
                    | Ok e => match ae_code e with d_plain c' => text_eqb (analysis_prose c') (analysis_prose c) | _ => false end
                    | _ => false end) some_sites = true -> raised (d_plain c).
Proof.
  intros c H. apply existsb_exists in H. destruct H as (s & I & H).
  destruct (@site_error unit s) as [e| | |] eqn:Es; try discriminate H. exists s, e. split; [exact Es|]. split.
  - cbn [some_sites In] in I. repeat (destruct I as [<-|I]; [first [exact Logic.I | left; apply Z.le_refl]|]). destruct I.
  - destruct (ae_code e) as [c'| | |]; try discriminate H. f_equal. apply C68_messages. apply LiteralsProofs.text_eqb_eq. exact H.
Qed.

Theorem C68_all_errors : forall e c, reported_code e = Some c -> raised c.
Proof.
  intros e c H.
  assert (T : forall t, raised (d_plain (code_of_check t))).
  { intros t. exists (st_binary_types t nowhere). destruct t; (eexists; split; [reflexivity|]; split; [exact Logic.I|reflexivity]). }
  assert (V : forall x, raised (d_evaluation x)).
  { intros x. exists (st_binary_evaluation x nowhere). eexists. split; [reflexivity|]. split; [exact Logic.I|reflexivity]. }
  destruct e as [?|?|a|[l ?]|a]; cbn [reported_code] in H; try discriminate H.
  - injection H as <-. apply raised_plain. destruct a; vm_compute; reflexivity.
  - injection H as <-. apply raised_plain. destruct l; vm_compute; reflexivity.
  - destruct a; try discriminate H; try (injection H as <-; first [apply T | apply V | apply raised_plain; vm_compute; reflexivity]).
    destruct c0; injection H as <-; try apply V;
      (exists (st_execution x_pop None nowhere (node dc_literal nowhere)); eexists; split; [reflexivity|]; split; [exact Logic.I|reflexivity]).
Qed.

(** *** Refutations *)

(** A value of a type that cannot be converted to the return type: the printer wants to know that type, but
    it was not given.  An assertion fails instead of a diagnostic. *)
Theorem C68_return_type_refuted : exists (source : string) s e,
  source = "function f() -> Uint(8) { return true; }" /\
  FrontEnd.compile 1000 20 (str source) = Some (Err (FrontEnd.fe_analysis Analyze.a_incompatible_types)) /\
  s = st_return_incompatible (Place (Pos 0 26 26) []) (Place (Pos 0 16 16) []) /\
  @site_error unit s = Ok e /\ in_source (str source) e /\
  forall file colors, @print_analysis_error unit file (str source) e colors = Abort.
Proof.
  eexists _, _, _. split; [reflexivity|]. split; [vm_compute; reflexivity|]. split; [reflexivity|]. split; [reflexivity|].
  split; [|reflexivity]. intros d p [->|H] P.
  - injection P as <-. split; [split; reflexivity|]. eexists. split; [reflexivity|discriminate].
  - injection H as <-. injection P as <-. split; [split; reflexivity|]. eexists. split; [reflexivity|discriminate].
Qed.
(** It is so for every such error. *)
Theorem C68_return_type : forall E file source statement type e colors,
  @site_error E (st_return_incompatible statement type) = Ok e ->
  @print_analysis_error E file source e colors = Abort.
Proof. intros E file source statement type e colors H. injection H as <-. reflexivity. Qed.

(** An error of the machine: which one it was is lost when the error is built, and read when it is printed. *)
Theorem C68_execution_refuted : exists (source : string) s e,
  source = "function f() -> Int { let y: Int; return y; } const x = f();" /\
  FrontEnd.compile 1000 20 (str source) = Some (Err (FrontEnd.fe_analysis (Analyze.a_execution x_load_uninitialized))) /\
  s = st_execution x_load_uninitialized None (Place (Pos 0 56 56) (str "f"))
        (node dc_id_expression (Place (Pos 0 41 41) [])) /\
  @site_error unit s = Ok e /\ in_source (str source) e /\
  forall file colors, @print_analysis_error unit file (str source) e colors = UB.
Proof.
  eexists _, _, _. split; [reflexivity|]. split; [vm_compute; reflexivity|]. split; [reflexivity|]. split; [reflexivity|].
  split; [|reflexivity]. intros d p [->|H] P.
  - injection P as <-. split; [split; reflexivity|]. eexists. split; [reflexivity|discriminate].
  - injection H as <-. injection P as <-. split; [split; reflexivity|]. eexists. split; [reflexivity|discriminate].
Qed.
Theorem C68_execution : forall E file source x comparison call instruction e colors,
  (forall v, x <> x_evaluation v) ->
  @site_error E (st_execution x comparison call instruction) = Ok e ->
  @print_analysis_error E file source e colors = UB.
Proof.
  intros E file source x comparison call instruction e colors N H. injection H as <-.
  destruct x as [| | |v| | | | |]; try reflexivity. destruct (N v eq_refl).
Qed.

(** [const x = 1 / 0;]: the diagnostic does not say what failed; it is the same for each of the reasons. *)
Theorem C68_reason_refuted : exists (source : string) s s' e e',
  source = "const x = 1 / 0;" /\
  FrontEnd.compile 1000 20 (str source)
    = Some (Err (FrontEnd.fe_analysis (Analyze.a_evaluation division_by_zero))) /\
  s = st_binary_evaluation division_by_zero (Place (Pos 0 10 10) []) /\
  s' = st_binary_evaluation shift_too_much (Place (Pos 0 10 10) []) /\
  @site_error unit s = Ok e /\ @site_error unit s' = Ok e' /\ e <> e' /\
  forall file colors, @print_analysis_error unit file (str source) e colors
                    = @print_analysis_error unit file (str source) e' colors.
Proof.
  eexists _, _, _, _, _. split; [reflexivity|]. split; [vm_compute; reflexivity|]. split; [reflexivity|]. split; [reflexivity|].
  split; [reflexivity|]. split; [reflexivity|]. split; [discriminate|]. reflexivity.
Qed.

(** [@unroll(1000)]: the diagnostic does not say which values are allowed. *)
Theorem C68_constraints_refuted : exists (source : string) s e,
  source = "function f() -> Void { @unroll(1000) while true { } }" /\
  FrontEnd.compile 1000 20 (str source) = Some (Err (FrontEnd.fe_annotation ae_argument_wrong_value)) /\
  s = st_argument_wrong_value (Place (Pos 0 31 31) []) (Place (Pos 0 23 23) (str "unroll")) (str "limit")
        pt_integer pt_integer /\
  @site_error unit s = Ok e /\
  @make_error_printable unit e = Ok
    ([ErrorLine lk_error (Some (Pos 0 31 31)) (str "This argument value is not allowed.") None false;
      ErrorLine lk_note (Some (Pos 0 31 31)) (str "Parameter 'limit' must be ") None true;
      ErrorLine lk_note (Some (Pos 0 23 23)) (str "In this annotation:") None false], false).
Proof.
  eexists _, _, _. split; [reflexivity|]. split; [vm_compute; reflexivity|]. split; [reflexivity|]. split; [reflexivity|].
  vm_compute. reflexivity.
Qed.

(** A failed assertion about a large number shows another number. *)
Theorem C68_comparison_refuted : exists f : comparison_failure,
  cv_type (cf_left f) = TInt /\ (- two127 <= cv_int (cf_left f) < two127)%Z /\
  forall a x, exists e, @site_error unit (st_static_assertion_failed a x (Some f)) = Ok e /\
    In (ErrorLine lk_note (Some (pl_pos (an_place x))) (str "Comparison evaluated to ")
          (Some (str "100", str "100", str "==")) false)
       (cause_note e) /\
    cv_int (cf_left f) <> cv_int (cf_right f).
Proof.
  exists (CmpFailure (CV TInt 100000000000000000000) (CV TInt 100) equals).
  split; [reflexivity|]. split; [unfold two127; cbn; lia|]. intros a x. eexists. split; [reflexivity|]. split; [|discriminate].
  left. reflexivity.
Qed.

(** *** Examples *)

Definition assertion_source : text := str "static_assert(1 + 1 == 3);".
Definition assertion_site : site :=
  st_static_assertion_failed (Place (Pos 0 0 0) []) (AnyNode dc_binary_expression (Place (Pos 0 14 14) []))
    (Some (CmpFailure (CV TInt 2) (CV TInt 3) equals)).
Example C68_comparison_example :
  FrontEnd.compile 1000 20 assertion_source
    = Some (Err (FrontEnd.fe_analysis Analyze.a_static_assertion_failed))
  /\ (let* e := @site_error unit assertion_site in print_analysis_error (str "a.bms") assertion_source e false)
     = Ok (str "a.bms:1:1: " ++ error_prefix ++ str "Static assertion failed." ++ [ch_newline]
           ++ str "    1 | static_assert(1 + 1 == 3);" ++ [ch_newline]
           ++ str "      | ^" ++ [ch_newline]
           ++ str "a.bms:1:15: " ++ note_prefix ++ str "Comparison evaluated to 2 == 3" ++ [ch_newline]
           ++ str "    1 | static_assert(1 + 1 == 3);" ++ [ch_newline]
           ++ str "      |               ^" ++ [ch_newline]).
Proof. split; vm_compute; reflexivity. Qed.

(** [const assert = 2;]: the cause is not a place of the source. *)
Example C68_builtin_example :
  FrontEnd.compile 1000 20 (str "const assert = 2;")
    = Some (Err (FrontEnd.fe_lookup (NameLookup.Lookup_Error NameLookup.failed_to_define_global_const
                                       (Some (Ast.LBuiltin builtin_assert)))))
  /\ (let* e := @site_error unit (st_define_global_const (Place (Pos 0 0 0) (str "assert")) (declared_builtin builtin_assert)) in
      let* p := make_error_printable e in Ok (map told_of (fst p)))
     = Ok [Told "error" (Some 0) (str "A name was already in use when attempting to define a global constant.") true;
           Told "note" None (str "An entity with the same name is already defined here: (builtin function 'assert')") true].
Proof. split; vm_compute; reflexivity. Qed.

Example C68_width_example :
  (let* e := @site_error unit (st_width_invalid (AnyNode dc_literal (Place (Pos 0 12 12) [])) 129) in
   let* p := make_error_printable e in Ok (map told_of (fst p)))
  = Ok [Told "error" (Some 12) (str "The width evaluated to 129, but the maximum allowed is 128.") true].
Proof. vm_compute. reflexivity. Qed.

(** * Assumptions of the theorems above *)
Print Assumptions C68_print_partial.
Print Assumptions C68_print_only.
Print Assumptions C68_sites_defined.
Print Assumptions C68_sites_partial.
Print Assumptions C68_error_partial.
Print Assumptions C68_execution_partial.
Print Assumptions C68_messages.
Print Assumptions C68_causes.
Print Assumptions C68_all_errors.
Print Assumptions C68_return_type_refuted.
Print Assumptions C68_return_type.
Print Assumptions C68_execution_refuted.
Print Assumptions C68_execution.
Print Assumptions C68_reason_refuted.
Print Assumptions C68_constraints_refuted.
Print Assumptions C68_comparison_refuted.
