(** Specification of annotation arguments: which parameters an annotation has, what they admit, and
    which parameter each argument is for. *)
From Coq Require Import ZArith Ascii String List Bool.
From Verif Require Import Text Literals LiteralsSpec Tables Annotations.
Import ListNotations.
Open Scope string_scope.
Open Scope list_scope.
Open Scope Z_scope.

(** What a parameter admits: a non-empty text, the year of a C standard, a number from 1 to 128. *)
Inductive kind : Type := non_empty_text | c_standard | up_to_128.

Inductive admits : kind -> argument_value -> Prop :=
| admits_text : forall s, s <> [] -> admits non_empty_text (av_string s)
| admits_standard : forall y, In y [89; 90; 99; 11; 17; 23; 29] -> admits c_standard (av_int y)
| admits_number : forall n, 1 <= n <= 128 -> admits up_to_128 (av_int n).

(** The parameters of the annotations: name, whether it must be given, what it admits. *)
Definition signature (t : annotation_type) : list (text * bool * kind) :=
  match t with
  | an_unroll => [(str "limit", true, up_to_128)]
  | an_c_equivalent =>
      [(str "function", true, non_empty_text); (str "include", false, non_empty_text);
       (str "since", false, c_standard)]
  | an_java_equivalent => [(str "method", true, non_empty_text)]
  | an_instantiate => [(str "n", true, up_to_128)]
  | _ => []
  end.

Definition name_at (t : annotation_type) (i : nat) : option text :=
  option_map (fun '(n, _, _) => n) (nth_error (signature t) i).
Definition required_at (t : annotation_type) (i : nat) : Prop :=
  exists n k, nth_error (signature t) i = Some (n, true, k).
Definition kind_at (t : annotation_type) (i : nat) : option kind :=
  option_map (fun '(_, _, k) => k) (nth_error (signature t) i).

(** [for_parameter t given a i]: when the parameters [given] have their arguments already, argument [a]
    is for parameter [i]. *)
Inductive for_parameter (t : annotation_type) (given : list nat) : annotation_argument -> nat -> Prop :=
| by_position : forall a i,
    aa_key a = [] -> (i < List.length (signature t))%nat ->
    ~ In i given -> (forall j, (j < i)%nat -> In j given) ->
    for_parameter t given a i
| by_name : forall a i,
    aa_key a <> [] -> name_at t i = Some (aa_key a) -> ~ In i given ->
    for_parameter t given a i.

(** [bound t given args slots]: the arguments [args] are, from left to right, for the parameters
    [slots]. *)
Inductive bound (t : annotation_type) : list nat -> list annotation_argument -> list nat -> Prop :=
| bound_nil : forall given, bound t given [] []
| bound_cons : forall given a args i slots,
    for_parameter t given a i -> bound t (given ++ [i]) args slots ->
    bound t given (a :: args) (i :: slots).

(** The kinds of integer literals and their tokens. *)
Definition literal_token (l : literal_type) : token_type :=
  match l with
  | binary_lit => tk_binary_literal
  | octal_lit => tk_octal_literal
  | decimal_lit => tk_decimal_literal
  | hexadecimal_lit => tk_hexadecimal_literal
  end.

(** [written a v]: argument [a] is the literal for [v]. *)
Inductive written : annotation_argument -> argument_value -> Prop :=
| written_true : forall k s, written (AA k s tk_keyword_true) (av_bool true)
| written_false : forall k s, written (AA k s tk_keyword_false) (av_bool false)
| written_string : forall k s, written (AA k s tk_string_literal) (av_string s)
| written_int : forall k l p ds z, is_literal_text l p ds -> denotes (base_of l) ds z ->
    written (AA k p (literal_token l)) (av_int z).

(** The arguments that the parser produces: literals, with strings stripped of their quotes. *)
Inductive well_formed : annotation_argument -> Prop :=
| wf_true : forall k s, well_formed (AA k s tk_keyword_true)
| wf_false : forall k s, well_formed (AA k s tk_keyword_false)
| wf_string : forall k s, string_body s -> well_formed (AA k s tk_string_literal)
| wf_int : forall k l p ds, is_literal_text l p ds -> well_formed (AA k p (literal_token l)).

(** No hexadecimal digit is in upper case (see C13: those literals have no value). *)
Definition lower_case (a : annotation_argument) : Prop :=
  tk_is_integer_literal (aa_value_type a) = true -> Forall (fun c => ~ is_upper_case c) (aa_value a).

(** [v] is the value of [a] and parameter [i] admits it. *)
Definition suits (t : annotation_type) (a : annotation_argument) (i : nat) (v : argument_value) : Prop :=
  written a v /\ exists k, kind_at t i = Some k /\ admits k v.

Inductive all_suit (t : annotation_type)
  : list annotation_argument -> list nat -> list argument_value -> Prop :=
| suit_nil : all_suit t [] [] []
| suit_cons : forall a i v args slots vs, suits t a i v -> all_suit t args slots vs ->
    all_suit t (a :: args) (i :: slots) (v :: vs).

(** The sort of value that a parameter takes and that a literal is. *)
Definition sort_of_kind (k : kind) : parameter_type :=
  match k with non_empty_text => pt_string | c_standard | up_to_128 => pt_integer end.
Definition sort_of_token (t : token_type) : option parameter_type :=
  match t with
  | tk_keyword_true | tk_keyword_false => Some pt_boolean
  | tk_string_literal => Some pt_string
  | tk_binary_literal | tk_octal_literal | tk_decimal_literal | tk_hexadecimal_literal => Some pt_integer
  | _ => None
  end.

(** [fault t given a e]: what is wrong with argument [a] after the parameters [given]. *)
Inductive fault (t : annotation_type) (given : list nat) (a : annotation_argument)
  : annotation_error -> Prop :=
| fault_superfluous :
    aa_key a = [] -> (forall i, (i < List.length (signature t))%nat -> In i given) ->
    fault t given a ae_too_many_arguments
| fault_unknown :
    aa_key a <> [] -> (forall i, name_at t i <> Some (aa_key a)) ->
    fault t given a ae_unknown_parameter
| fault_duplicate : forall i,
    aa_key a <> [] -> name_at t i = Some (aa_key a) -> In i given ->
    fault t given a ae_argument_duplicate
| fault_type : forall i k,
    for_parameter t given a i -> kind_at t i = Some k ->
    sort_of_token (aa_value_type a) <> Some (sort_of_kind k) ->
    fault t given a ae_argument_wrong_type
| fault_value : forall i k,
    for_parameter t given a i -> kind_at t i = Some k ->
    sort_of_token (aa_value_type a) = Some (sort_of_kind k) ->
    (forall v, written a v -> ~ admits k v) ->
    fault t given a ae_argument_wrong_value
| fault_literal : forall i,
    for_parameter t given a i -> tk_is_integer_literal (aa_value_type a) = true ->
    (forall z, written a (av_int z) -> ~ lower_case a \/ 2 ^ 128 <= z) ->
    fault t given a ae_invalid_integer_literal.

(** [rejected t args e]: the arguments before the first faulty one are in order, or all of them are and
    a required parameter is missing. *)
Inductive rejected (t : annotation_type) (args : list annotation_argument) : annotation_error -> Prop :=
| rejected_argument : forall pre a post slots vs e,
    args = pre ++ a :: post -> bound t [] pre slots -> all_suit t pre slots vs ->
    fault t slots a e -> rejected t args e
| rejected_missing : forall slots vs i,
    bound t [] args slots -> all_suit t args slots vs -> required_at t i -> ~ In i slots ->
    rejected t args ae_missing_argument.

(** Where annotations may appear. *)
Definition belongs_on (t : annotation_type) (c : construct) : Prop :=
  match t with
  | an_immutable | an_loop_variable => c = co_variable
  | an_inline => c = co_variable \/ c = co_function_call_expression
  | an_loop_step => c = co_assignment
  | an_unroll => c = co_while_statement
  | an_false_if_unknown => c = co_if_statement
  | an_c_equivalent | an_java_equivalent | an_instantiate | an_remove_if_unused => c = co_function
  end.
