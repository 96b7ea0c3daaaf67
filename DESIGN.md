# Formal model of Eisenwave/bit-manipulation: design

Everything below concerns the source in `/repo/src` at the pinned commit. Nothing is built or run; the
C++ text is transcribed by hand to Gallina. All Coq sources live in `rocq/theories` (logical name `Verif`).

## Conventions

* **Outcomes.** A C++ function returning `Result<T, E>` becomes `T`-valued in the type
  `outcome E T := Ok t | Err e | Abort | UB`. `Abort` is a failed `BIT_MANIPULATION_ASSERT` (which throws
  in every build, `common/assert.hpp:20-31`) or another C++ exception (`std::vector::at`, `std::get`);
  `UB` is C++ undefined behaviour (signed 128-bit overflow, shift by >= 128, `INT128_MIN / -1`,
  dereferencing an end iterator, `back()` on an empty vector).
* **Integers.** `Big_Int`/`Big_Uint` (`common/config.hpp`) are `Z` together with explicit wrapping functions
  to `[-2^127, 2^127)` and `[0, 2^128)`. `Size`/`int` are `Z`/`nat` without wrap-around (source sizes below
  2^63 are assumed; recorded as a simplification where used).
* **Pointers and arenas.** AST handles become inductive trees; pointer identity of declarations becomes a
  numeric key.
* Each file `X.v` holds the model (every definition cites file and lines); `XProofs.v` the lemmas;
  `XSpec.v` the
  vocabulary of the specification, independent of the model's functions; `XProps.v` the final theorems with
  their non-vacuity examples and `Print Assumptions`.
* If a property is false for the code, the theorem is `..._refuted` with a witness run through the model,
  and what does hold is proved beside it (suffix `_partial` when it covers less than the English statement).

## Trusted base

* **Coq 8.16.1 kernel**, including its virtual machine (`vm_compute` is used for witnesses and finite tables).
* **Standard library**, only `ZArith`, `Ascii`, `String`, `List`, `Bool`, `Lia`,
  `ZifyBool`, `Arith`, `Permutation`, `Sorted`. No other library.
* **Axioms: none.** `Print Assumptions` follows every final theorem in the `*Props.v` files; each one answers
  "Closed under the global context". `coqchk -o` lists `Coq.ssr.ssrunder.Under_rel.*` because `Lia` loads the
  ssreflect plugin's prelude; these are the fields of an opaque module of the standard library and no theorem
  here depends on them.
* **The transcription** from C++ to Gallina, made by hand and cited line by line in the model files.
* **The specifications**: `*Spec.v`, the statements in `*Props.v`, and the evaluator `SourceSem.v`.

Extraction is not used. There are no `Admitted`, no functors, no plugins, no kernel switches.

## What is modelled

| source (`/repo/src`) | model | left out |
|----|----|----|
| `bms/concrete_type.hpp`, `concrete_value.hpp`, `expression_type.hpp` | `Types.v`, `Tables.v` | |
| `bms/evaluation/operations.cpp`, `bms/value.hpp` | `Ops.v`, `AbsOps.v` | |
| `common/tribool.hpp` | `Tribool.v` | |
| `common/result.hpp`, `common/variant.hpp`, `common/packs.hpp` | `Holders.v` | the specialisation of `Variant` for trivially copyable types, the monadic interface (switched off), exceptions of contained types |
| `common/parse.cpp`, `common/parse.hpp` | `Literals.v`, `Text.v` | |
| `common/diagnostics.cpp:30-42` | `Decimal.v` | |
| `common/diagnostics.cpp:90-105, 269-325, 604-826, 947-1003`, `common/ansi.hpp`, `cli/glue.cpp:42-65, 166-191` | `Diagnostics.v` | |
| `common/diagnostics.cpp:881-974, 984-990`, `bmd/parsing/parse.hpp:45-50` | `DocTree.v` | negative options |
| `common/diagnostics.cpp:830-881, 976-982`, `bms/parsing/astp.hpp`, the nodes pushed in `bms/parsing/parse.cpp:490-1521` | `ProgramTree.v` | the vector of nodes is a tree with handles; positions are the texts of their tokens; negative options |
| `common/diagnostics.cpp:46-88, 107-267, 327-593, 739-746`, `bms/analysis_error.hpp`; the places in `bms/analyze*.cpp` that build an error | `ErrorPrint.v` | the file name is that of the program for failure and cause; the places are a list (`site`), which is not derived from `Analyze.v` (`C68_all_errors` says that each error of `Analyze.v` is one of the list) |
| `bms/tokenization/*`, tables of `bms/util.cpp` | `Tokenizer.v`, `Tables.v` | names that are only used in messages |
| `bms/parsing/parse.cpp`, `astp.hpp` | `Parse.v` | source positions; the limit of the C++ stack |
| `bms/analyze_annotations.cpp`, `annotation.hpp` | `Annotations.v`, `Convert.v` (the walk) | |
| `bms/ast.cpp` | `Convert.v` | parents, positions, annotations |
| `cli/compile.cpp:16-78` | `FrontEnd.v` | reading files, diagnostics |
| `cli/main.cpp`, `cli/compile.cpp`, `cli/glue.cpp:152-164`, `common/io.cpp`, `bmd/codegen/codegen.cpp` | `Tool.v` | the places in errors of the analysis, the texts of exceptions, and what a failed conversion has written are parameters; a file does not change while the tool runs |
| `bms/ast.hpp` | `Ast.v` | parents, positions, annotations |
| `bms/symbol_table.hpp`, `analyze_name_lookup.cpp` | `NameLookup.v` | |
| `bms/analyze.cpp` | `Analyze.v` (calls of bit-generic functions are answered `outside_model`); `AnalyzeGeneric.v` (all of it, with instances); `Instantiate.v` (deduction of widths) | debug information |
| `bms/instantiate.cpp`, `bms/deduction.hpp` | `Instantiate.v` | parents, positions |
| `bms/vm/*` | `LinMap.v`, `VM.v`, `Codegen.v`; `VMPrint.v` (`instructions.cpp`) | debug information, except for the names in `VMPrint.v`; how pointers are printed |
| `test/program_file_testing.*`, `diagnostic_policy.hpp`, `compilation_stage.hpp` | `Testing.v`; `RepoTests.v` (`test/main.cpp` and the programs in `/repo/test`) | what tests print, although printing may fail; expected lines of errors of the analysis in `RepoTests.v` |
| `bmd/codegen/code_string.hpp`, `generator_base.hpp` | `CodeString.v`, `GenBase.v` | |
| `bmd/codegen/codegen_bms.cpp`, `codegen_c_cpp.cpp` | `GenBms.v`, `GenC.v` | the node that an error is about |
| `bmd/html/html_writer.*` | `HtmlWriter.v` | |
| `bmd/directive_type.hpp`, `bmd/enums.cpp` | `Directives.v` | |
| `bmd/parsing/*` | `BmdParse.v` | |
| `bmd/html/bms_to_html.cpp`, `bmd/codegen/code_span_type.hpp` | `BmsHtml.v` | the details of errors |
| `bmd/html/doc_to_html.cpp` | `DocHtml.v` | the hash order of attributes is any permutation (`arrange`) |

In all other files of the model, variants and results are inductive types; `Holders.v` (C71) is the model of the two
classes themselves.

Not modelled: memory management (arenas, `pmr`).

## General simplifications

* `Size` and `int` counters of things that are in memory are unbounded.
* The C++ call stack is unbounded. Recursion that is not structural runs on fuel; running out of it is the
  separate result `None`, which theorems exclude or prove impossible.
* Trees that the code changes in place are rebuilt; nodes that others point to have an identity (`positive`).
* `std::unordered_map` and `std::sort`ed tables are association lists; hashing is not modelled.

## How the parts fit together

* **Values and operators** (`Ops*`, `AbsOps*`, `Tribool*`; C01-C11): plain mathematics over `Z` against the model.
* **Text** (`Literals*`, `Tokenizer*`, `Tables*`, `Decimal*`; C12-C18, C43-C45, C54): induction over strings.
* **Virtual machine** (`LinMap*`, `VM*`; C19, C20, C22): refinement to an abstract machine.
* **Code for the machine** (`Codegen*`, `SourceSem`; C21, C23-C26): simulation of an evaluator over trees.
* **Analysis** (`Analyze*`, `Annotated*`, `Accepted*`; C21, C24-C30): what is recorded for accepted programs fits
  together, which connects the machine with the evaluator.
* **Names** (`NameLookup*`, `Sources*`; C31): relational specification of scoping.
* **Instances** (`Instantiate*`; C64, C65): an instance is the function relabelled and with widths filled in.
  `AnalyzeGeneric*` (C70) is the whole analysis with instances; it agrees with `Analyze.v` on programs without calls of
  bit-generic functions, and an invariant over all reachable states says where calls lead.
* **Tagged unions** (`Holders*`; C71): the memory counts constructed and destroyed objects; every operation on the
  memory is simulated by an operation on boxes without tags.
* **Parser** (`Parse*`, `GrammarSpec`; C51-C53, C73): soundness, completeness and totality relative to the documented
  grammar with three switches, the *dialect*, for the points in which the parser deviates.
* **Front end** (`Convert*`, `FrontEnd*`, `AnnotationWalk*`; C56-C58, C60): the passes in a row; theorems about
  accepted programs become theorems about source texts. `AnnotationWalkSpec` lists the annotations of a program.
* **Source meaning** (`Program*`; C59): `ProgramSem` is a semantics of resolved programs that uses no recorded type or
  value; `ProgramExprs`, `ProgramCalls`, `ProgramStmts`, `ProgramProofs` follow the analysis and show that what it
  records is what the source means. Static values are limits: `statics_of` takes an *effort*, and statements say
  "from some effort on".
* **Generators** (`Gen*`, `Print*`, `CPrint*`, `CGrammar*`, ...; C32-C35, C55): printed BMS is tokenized and
  parsed back; printed C is read with a grammar of C expressions that is proved unambiguous.
* **Documents** (`Bmd*`, `Directives*`, `HtmlWriter*`; C36-C42, C46-C50).
* **Pages** (`DocHtml*`, `BmsHtml*`; C61-C63): `DocHtmlSpec.page_events` says which tags and characters the page of a
  document should have. The proofs follow the writer: each step *adds* events that look like those, up to the
  length of white space; for code, `exact_events` also fixes the white space. `DocHtmlTotal`
  shows that each step is *fine*: it answers, and leaves depth and indentation as they were.
* **Diagnostics** (`Diagnostics*`, `BmdErrors`, `CodePrint*`; C66, C67): `shows` says that a text is another one with
  colours, `diagnosed` what an error message looks like; `BmdErrors` follows the parser of documents along its errors.
* **Messages of the analysis** (`ErrorPrint*`; C68): `about` says which lines a report of an error should have, `printable` which
  errors the printer accepts. `AssertProps` (C69) follows a failed assertion through generated code and machine.
* **Printed trees** (`DocTree*`; C74): the lines are compared with a walk over the tree; that spans can be extracted
  follows from where the parser places nodes (C49), for which blocks are known to lie strictly inside of directives.
* **Printed trees of programs** (`ProgramTree*`; C77): a specification of what is shown of each construct
  (`view_program`), without handles or the order of pushes; every builder is shown to give that view, to take an
  interval of handles, and to be covered by its names exactly if annotations have at most one argument; the layout of a view is
  read back line by line. `ProgramTreeTold` walks over the phrases of the grammar: the trees of parsed programs are equal exactly if these are the
  same but for names.
* **Listings** (`VMPrint*`; C75): `same_instr` says what can be read from a line; lines with equal text are compared
  constructor by constructor, numbers by what their digits denote (C54).
* **Tests** (`Testing*`; C76): a test is a function of the *world* of C72. `RepoTests.v` runs the project's own 81 tests
  of programs in the model, as examples: the model gives every answer that they expect.
* **Command line** (`Tool*`; C72): a run is a function of the arguments and of the *world*, which says what is in files
  and whether they can be written; it ends with a status, the text on the console and a written file.
* `tools/print_assumptions.py` writes the `Print Assumptions` blocks, `tools/manifest.py` writes `MANIFEST.json`
  from `tools/claims.json` and the theorem names, `tools/mutate.py` runs wrong edits in a scratch copy and
  writes `seeded/LOG.jsonl`.

## Reading the results

A property that is false for the code has a theorem `..._refuted` with a witness, and what does hold is proved
next to it, with the suffix `_partial`. The notes in `MANIFEST.json` say which clause is which. Where a property
is false only for a describable set of inputs, the partial theorem excludes exactly this set, mostly with "if
and only if" statements (for example C04, C20, C33, C40, C54).

