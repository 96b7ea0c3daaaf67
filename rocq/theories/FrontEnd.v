(** From source text to an analysed program: the steps of [tokenize_bms_file], [parse_tokenized] and
    [analyze_parsed] (src/cli/compile.cpp:16-78) and of [analyze] (src/bms/analyze.cpp:1115-1127).
    Reading the file and printing diagnostics are left out. *)
From Coq Require Import ZArith List Bool.
From Verif Require Import Prelude Text Types Tables Tokenizer Ops AbsOps Annotations Ast Parse NameLookup Codegen Analyze Sources Convert.
Import ListNotations.

(** The errors of the steps. *)
Inductive front_error : Type :=
| fe_tokenize (e : tokenize_error)
| fe_parse (e : parse_error)
| fe_annotation (e : annotation_error)
| fe_lookup (e : lookup_error)
| fe_analysis (e : analysis_error).

(** The errors of a step are errors of the whole (src/cli/compile.cpp:20-26,57-64,73-79). *)
Definition step_error {E E' A} (f : E -> E') (o : outcome E A) : outcome E' A :=
  match o with Ok a => Ok a | Err e => Err (f e) | Abort => Abort | UB => UB end.

(** What is known about an accepted program: the parser's tree, the declarations after name lookup, and the
    state of the analysis. *)
Record compiled : Type := Compiled { c_tree : list pdecl; c_declarations : list declaration; c_state : state }.

(** [Analyzed_Program] and [analyze] (src/bms/ast.cpp:295-305, src/bms/analyze.cpp:1115-1127), given the
    parser's tree.  [run_fuel] and [fuel] bound what analysis evaluates; see Analyze.v. *)
Definition analyze_tree (run_fuel fuel : nat) (p : list pdecl) : option (outcome front_error compiled) :=
  match
    (let* l := convert_program p in
     let* _ := step_error fe_annotation (resolve_annotations p) in
     step_error fe_lookup (name_lookup l))
  with
  | Ok l' =>
      match analyze_program run_fuel fuel (table_of l') (items_of l') with
      | None => None
      | Some o => Some (let* '(_, st) := step_error fe_analysis o in Ok (Compiled p l' st))
      end
  | Err e => Some (Err e)
  | Abort => Some Abort
  | UB => Some UB
  end.

(** src/cli/compile.cpp:16-78. *)
Definition compile (run_fuel fuel : nat) (source : text) : option (outcome front_error compiled) :=
  match tokenize source with
  | None => None
  | Some (Ok tokens) =>
      match parse (lexemes source tokens) with
      | None => None
      | Some (Ok p) => analyze_tree run_fuel fuel p
      | Some (Err e) => Some (Err (fe_parse e))
      | Some Abort => Some Abort
      | Some UB => Some UB
      end
  | Some (Err e) => Some (Err (fe_tokenize e))
  | Some Abort => Some Abort
  | Some UB => Some UB
  end.
