(** What the tests of files are about: how far the compilation of a file gets, and with which error it ends. *)
From Coq Require Import ZArith Ascii String List Bool.
From Verif Require Import Prelude Text Types Ops Tables Tokenizer Parse VM NameLookup Convert FrontEnd ErrorPrint Tool Testing.
Import ListNotations.
Open Scope string_scope.
Open Scope list_scope.
Open Scope Z_scope.

(** The file of a test can be read, and this is its content. *)
Definition reads (w : world) (file source : text) : Prop := input w (str "test/" ++ file) = Content source.

(** The steps of the compilation. *)
Definition tokenized (source : text) (ts : list token) : Prop := tokenize source = Some (Ok ts).
Definition parsed (source : text) (p : list pdecl) : Prop :=
  exists ts, tokenized source ts /\ parse (lexemes source ts) = Some (Ok p).
Definition accepted (run_fuel fuel : nat) (source : text) (l : list declaration) : Prop :=
  exists p, parsed source p /\ analyze run_fuel fuel p = Some (Ok l).

(** The stage is passed; there is nothing to pass in [introspect]. *)
Definition passed (run_fuel fuel : nat) (s : stage) (source : text) : Prop :=
  match s with
  | stage_load_file => True
  | stage_tokenize => exists ts, tokenized source ts
  | stage_parse => exists p, parsed source p
  | stage_analyze | stage_introspect => exists l, accepted run_fuel fuel source l
  end.

(** The errors with which the steps end. *)
Definition tokenize_ends (source : text) (e : tokenize_error) : Prop := tokenize source = Some (Err e).
Definition parse_ends (source : text) (ts : list token) (e : parse_error) : Prop :=
  tokenized source ts /\ parse (lexemes source ts) = Some (Err e).
Definition analysis_ends (run_fuel fuel : nat) (source : text) (p : list pdecl) (e : tool_error) : Prop :=
  parsed source p /\ analyze run_fuel fuel p = Some (Err e).

(** The token at which parsing has stopped: the first of those that are left. *)
Definition stopped_at (ts : list token) (e : parse_error) (t : token) : Prop :=
  exists before after, ts = before ++ t :: after /\ length (pe_rest e) = S (length after).

(** An optional expectation. *)
Definition agrees {A} (expected : option A) (P : A -> Prop) : Prop := forall a, expected = Some a -> P a.

(** The error of the analysis has the expected code; of errors in evaluations, also the kind. *)
Definition has_code (x : code_expectation) (e : ErrorPrint.analysis_error) : Prop :=
  match ae_code e with
  | d_plain c => ce_code x = c /\ c <> ac_evaluation_error /\ c <> ac_execution_error
  | d_evaluation a => ce_code x = ac_evaluation_error /\ ce_detail x = detail_evaluation a
  | d_execution a => ce_code x = ac_execution_error /\ ce_detail x = detail_execution a
  | d_execution_lost => False
  end.

(** The place is on that line, where the first line has the number one. *)
Definition on_line (pos : option position) (n : Z) : Prop := exists p, pos = Some p /\ Z.of_nat (line p) + 1 = n.
