(** The command-line tool.  Models src/cli/main.cpp, src/cli/compile.cpp, what src/cli/glue.cpp adds to
    [Diagnostics.v], src/common/io.cpp and src/bmd/codegen/codegen.cpp.

    - Writing to the console always succeeds, so [!std::cout] (src/cli/main.cpp:84-87) is false.
    - The positions that belong to an error of the analysis are not part of the model of the analysis; they are
      an argument, as are the texts of assertions and exceptions, and what has been
      written of a page when its conversion fails.
    - What has been printed of a message when an assertion fails in printing it is left out.
    - Memory is unlimited. *)
From Coq Require Import ZArith Ascii String List Bool.
From Verif Require Import Prelude Text Types Tables Tokenizer Ops AbsOps Annotations Ast Parse NameLookup Codegen Analyze
  Programs Sources Convert FrontEnd Instantiate AnalyzeGeneric CodeString GenBase GenBms GenC HtmlWriter DocHtml Diagnostics.
From Verif Require BmdParse ErrorPrint DocTree ProgramTree.
Import ListNotations.
Open Scope string_scope.
Open Scope list_scope.
Open Scope nat_scope.

(** * Languages *)

(** [Code_Language] (src/bmd/codegen/code_language.hpp:10-27). *)
Inductive code_language : Type :=
| cl_bms | cl_c | cl_cpp | cl_rust | cl_java | cl_kotlin | cl_javascript | cl_typescript.

(** [code_language_name] (src/bmd/enums.cpp:237-251). *)
Definition code_language_name (l : code_language) : text :=
  match l with
  | cl_bms => str "bms" | cl_c => str "c" | cl_cpp => str "cpp" | cl_rust => str "rust"
  | cl_java => str "java" | cl_kotlin => str "kotlin" | cl_javascript => str "javascript"
  | cl_typescript => str "typescript"
  end.

(** [code_language_readable_name] (src/bmd/enums.cpp:253-267). *)
Definition code_language_readable_name (l : code_language) : text :=
  match l with
  | cl_bms => str "BMS" | cl_c => str "C" | cl_cpp => str "C++" | cl_rust => str "Rust"
  | cl_java => str "Java" | cl_kotlin => str "Kotlin" | cl_javascript => str "JavaScript"
  | cl_typescript => str "TypeScript"
  end.

(** The table of [code_language_by_name] (src/cli/glue.cpp:76-100). *)
Definition languages_by_name : list (text * code_language) :=
  [ (str "bms", cl_bms); (str "BMS", cl_bms); (str "c", cl_c); (str "C", cl_c); (str "c++", cl_cpp);
    (str "C++", cl_cpp); (str "cpp", cl_cpp); (str "cxx", cl_cpp); (str "rs", cl_rust);
    (str "rust", cl_rust); (str "Rust", cl_rust); (str "java", cl_java); (str "Java", cl_java);
    (str "kotlin", cl_kotlin); (str "Kotlin", cl_kotlin); (str "kt", cl_kotlin);
    (str "js", cl_javascript); (str "JS", cl_javascript); (str "javascript", cl_javascript);
    (str "JavaScript", cl_javascript); (str "ts", cl_typescript); (str "TS", cl_typescript);
    (str "TypeScript", cl_typescript) ].

(** [code_language_by_name] (src/cli/glue.cpp:69-109). *)
Definition code_language_by_name (name : text) : option code_language := find_name name languages_by_name.

(** [generate_code] (src/bmd/codegen/codegen.cpp:36-53), with the languages that are not implemented (6-34). *)
Definition generate_code (language : code_language) (o : code_options) (l : list declaration) (out : code_string)
  : code_string * outcome generator_error unit :=
  match language with
  | cl_bms => generate_bms_code o l out
  | cl_c => generate_c_cpp_code false o l out
  | cl_cpp => generate_c_cpp_code true o l out
  | cl_rust | cl_java | cl_kotlin | cl_javascript | cl_typescript => (out, Abort)
  end.

(** * Files *)

(** What opening and reading a file leads to (src/common/io.cpp:12-25): it cannot be opened, it has that
    content, or reading sets [badbit]. *)
Inductive opened : Type := Unopenable | Content (t : text) | Broken.

(** [file_to_string] (src/common/io.cpp:19-26): [left] is what has not been read, and [out] what has.
    [read] succeeds if it gets as many characters as it was asked for.  The buffer always has [read_size]
    characters, of which [gcount] count. *)
Fixpoint read_chunks (fuel read_size : nat) (left out : text) : option text :=
  match fuel with
  | 0 => None
  | S fuel' =>
      let buf := firstn read_size left in
      if Nat.leb read_size (length left)
      then read_chunks fuel' read_size (skipn read_size left) (out ++ buf)
      else Some (out ++ buf)
  end.

(** What opening a file for writing leads to (src/cli/main.cpp:92-96): it cannot be opened, or it is emptied
    and takes that many characters, or all. *)
Inductive creation : Type := Uncreatable | Room (n : option nat).

(** The surroundings of a run (src/common/io.cpp:12, src/cli/main.cpp:92). *)
Record world : Type := World { input : text -> opened; output : text -> creation }.

(** What a run leaves behind: the status, what it has printed, and the file it has emptied, with its new
    content (src/cli/main.cpp:190-239). *)
Record ending : Type := Ending { status : Z; console : text; file_written : option (text * text) }.

Definition ends (n : Z) (t : text) : ending := Ending n t None. (* src/cli/main.cpp:38-39 *)

(** [std::string_view::ends_with] (src/cli/main.cpp:37, 51, 57). *)
Definition ends_with (t suffix : text) : bool :=
  Nat.leb (length suffix) (length t) && text_eqb (skipn (length t - length suffix) t) suffix.

(** * Pages *)

(** [highlight_color_of(HTML_Token_Type)] (src/cli/glue.cpp:18-40). *)
Definition html_color (k : html_token_type) : text :=
  match k with
  | ht_whitespace | ht_inner_text => ansi_reset
  | ht_preamble | ht_comment => ansi_h_black
  | ht_tag_identifier => ansi_h_blue
  | ht_tag_bracket | ht_attribute_equal | ht_attribute_comma => ansi_black
  | ht_attribute_key => ansi_h_cyan
  | ht_attribute_quote | ht_attribute_value => ansi_h_green
  end.

(** The kind of token (src/bmd/html/token_consumer.hpp:15-17). *)
Definition chunk_kind (c : chunk) : html_token_type := match c with Chunk _ k => k | Fill _ _ k => k end.

(** [Colored_HTML_Consumer] (src/cli/glue.cpp:111-131). *)
Definition colored_page (l : list chunk) : text := flat_map (fun c => html_color (chunk_kind c) ++ chunk_text c) l.

(** [Simple_HTML_Consumer] (src/cli/glue.cpp:133-150). *)
Definition simple_page (l : list chunk) : text := flat_map chunk_text l.

(** What arrives of a text in a file (src/cli/glue.cpp:133-150); that a character could not be written is
    ignored (e.g. src/bmd/html/html_writer.cpp:20). *)
Definition stored (room : option nat) (t : text) : text := match room with None => t | Some n => firstn n t end.

(** * Texts *)

Definition ansi_green : text := ansi "32". (* src/common/ansi.hpp:10 *)
Definition ansi_yellow : text := ansi "33". (* src/common/ansi.hpp:11 *)

(** [print_io_error] of [cannot_open] (src/common/diagnostics.cpp:631-641, 797-802, 390-394); it prints to the
    console whichever stream it gets. *)
Definition cannot_open_text (file : text) : text :=
  ansi_black ++ file ++ str ":" ++ ansi_reset ++ str ": Failed to open file." ++ [ch_newline].

(** [command_helps] (src/cli/main.cpp:168-176). *)
Definition command_helps : list (text * text * text) :=
  [ (str "dump_tokens", str "FILE", str "Prints BMS/BMD tokens.");
    (str "dump_ast", str "FILE", str "Prints the BMS/BMD abstract syntax tree.");
    (str "verify", str "FILE", str "Performs semantic analysis on the BMS file, i.e. checks for correctness.");
    (str "generate", str "FILE LANGUAGE", str "Converts the given BMS file to code in the specified language.");
    (str "html", str "FILE [OUTPUT_FILE]", str "Converts the BMD file to an HTML file, or prints to stdout.") ].

(** [print_help] (src/cli/main.cpp:178-188). *)
Definition help_text (program_name : text) : text :=
  ansi_black ++ str "Usage: " ++ ansi_reset ++ program_name ++ ansi_yellow ++ str " COMMAND "
  ++ ansi_h_green ++ str "..." ++ [ch_newline]
  ++ flat_map (fun h => str "    " ++ ansi_yellow ++ fst (fst h) ++ str " " ++ ansi_h_green ++ snd (fst h)
                        ++ [ch_newline] ++ str "      " ++ ansi_reset ++ snd h ++ [ch_newline]) command_helps.

(** src/cli/main.cpp:38, 117. *)
Definition suffix_text : text := ansi_red ++ str "Error: file must have '.bms' suffix" ++ [ch_newline].
Definition suffix_text_generate : text := (* src/cli/main.cpp:136 *)
  ansi_red ++ str "Error: file must have '.bms' suffix." ++ [ch_newline].
Definition unrecognized_suffix_text (file : text) : text := (* src/cli/main.cpp:64, 110 *)
  ansi_red ++ str "Error: unrecognized file suffix for: " ++ file ++ [ch_newline].
Definition unrecognized_language_text (name : text) : text := (* src/cli/main.cpp:141 *)
  ansi_red ++ str "Error: unrecognized code language: '" ++ name ++ str "'" ++ [ch_newline].
Definition passed_text : text := (* src/cli/main.cpp:127 *)
  ansi_green ++ str "All checks passed." ++ [ch_newline] ++ ansi_reset.
Definition not_generated_text : text := (* src/cli/main.cpp:154 *)
  ansi_red ++ str "Error: failed to generate code." ++ [ch_newline].
Definition not_supported_text : text := (* src/cli/main.cpp:75 *)
  str "Converting BMS files to HTML is not supported yet" ++ [ch_newline].
Definition unknown_command_text (c : text) : text := (* src/cli/main.cpp:222 *)
  str "Unknown command '" ++ c ++ str "'" ++ [ch_newline].

(** * Errors of the analysis *)

(** The [Analysis_Error]s of the steps of [analyze] (src/bms/analyze.cpp:1115-1127). *)
Inductive tool_error : Type :=
| te_front (e : front_error)
| te_analysis (e : generic_error).

(** One more than all identities, as new nodes get identities of their own (src/bms/ast.cpp:295-305). *)
Definition after_all (l : list positive) : positive := Pos.succ (fold_right Pos.max 1%positive l).

(** The nodes that are declared ([Function], [Parameter], [Const], [Let]; src/bms/ast.hpp:40-60). *)
Definition nodes_of (l : list declaration) : list positive :=
  flat_map (fun d => match d with
                     | Decl_Function f => f_self f :: map p_self (f_params f) ++ declares (f_body f)
                     | Decl_Statement s => declares s
                     end) l.

(** The program after its analysis (src/bms/analyze.cpp:89-103). *)
Definition analysed (items : list item) (g : gstate) : list declaration :=
  flat_map (fun i => match i with
                     | Item_Function n => match st_functions (g_st g) n with Some f => [Decl_Function f] | None => [] end
                     | Item_Statement s => [Decl_Statement s]
                     end) items.

(** * The tool *)

Section Tool.

(** What the analysis may evaluate (see [Analyze.v]), and how far documents are parsed (see [BmdParse.v]). *)
Variables (run_fuel fuel document_fuel : nat).
(** The order of the entries of a hash table (see [DocHtml.v]). *)
Variable arrange : list (text * BmdParse.bmd_value) -> list (text * BmdParse.bmd_value).
(** The error of the analysis of a program with its places (src/bms/analysis_error.hpp:180-300). *)
Variable located : list pdecl -> tool_error -> ErrorPrint.analysis_error.
(** The rest of a failed assertion's report (src/common/diagnostics.cpp:774-794), and [e.what()]
    (src/cli/main.cpp:231). *)
Variables (assertion_rest exception_what : text).
(** What has been written when a conversion fails (src/bmd/html/doc_to_html.cpp:565-605). *)
Variable unfinished : option BmdParse.bmd_node -> list chunk.

Variable w : world.

(** A part of a run: it may not end, end the run ([std::exit], src/cli/compile.cpp:25), or fail an assertion. *)
Definition run (A : Type) : Type := option (outcome ending A).
Definition then_ {A B} (m : run A) (f : A -> run B) : run B := (* src/cli/main.cpp:41-44 *)
  match m with
  | None => None
  | Some (Ok a) => f a
  | Some (Err e) => Some (Err e)
  | Some Abort => Some Abort
  | Some UB => Some UB
  end.
Notation "'let^' x ':=' m 'in' k" := (then_ m (fun x => k))
  (at level 200, x name, m at level 100, k at level 200, right associativity).

(** A step with errors that are printed before the run ends (src/cli/compile.cpp:20-26, 41-47, 57-64, 73-79). *)
Definition step {E A} (m : option (outcome E A)) (print : E -> outcome Empty_set text) : run A :=
  match m with
  | None => None
  | Some (Ok a) => Some (Ok a)
  | Some (Err e) =>
      Some match print e with Ok t => Err (ends 1 t) | Err x => match x with end | Abort => Abort | UB => UB end
  | Some Abort => Some Abort
  | Some UB => Some UB
  end.

(** The text that [main] prints for a failed assertion (src/cli/main.cpp:225-227,
    src/common/diagnostics.cpp:764-772). *)
Definition assertion_text : text := ansi_h_red ++ str "Assertion failed! " ++ ansi_reset ++ assertion_rest.

(** The same for a [std::exception] (src/cli/main.cpp:228-233). *)
Definition exception_text : text :=
  ansi_h_red ++ str "Unhandled exception! " ++ ansi_reset
  ++ str "An exception with the following message has been raised:" ++ [ch_newline; ch_newline]
  ++ exception_what ++ [ch_newline; ch_newline] ++ internal_error_notice true.

(** [load_file] and [file_to_string] (src/cli/compile.cpp:29-37, src/common/io.cpp:8-27).  The loop ends
    after that many steps at the latest. *)
Definition load_file (file : text) : run text :=
  match input w file with
  | Unopenable => Some (Err (ends 1 (cannot_open_text file)))
  | Broken => Some (Err (ends 1 exception_text))
  | Content t => match read_chunks (S (length t)) 4096 t [] with Some s => Some (Ok s) | None => None end
  end.

(** [tokenize_bms_file] (src/cli/compile.cpp:16-27). *)
Definition tokenize_file (source file : text) : run (list token) :=
  step (tokenize source) (fun e => print_tokenize_error file source e true).

(** [parse_bmd_file] (src/cli/compile.cpp:39-50). *)
Definition parse_bmd_file (source file : text) : run (option BmdParse.bmd_node) :=
  step (BmdParse.bmd_parse document_fuel source) (fun e => print_bmd_error file source e true).

(** [parse_tokenized] (src/cli/compile.cpp:52-65). *)
Definition parse_tokenized (tokens : list token) (source file : text) : run (list pdecl) :=
  let ts := lexemes source tokens in
  step (parse ts) (fun e => print_parse_error file source tokens e true).

(** [Analyzed_Program] and [analyze] (src/bms/ast.cpp:295-305, src/bms/analyze.cpp:1115-1127). *)
Definition analyze (p : list pdecl) : option (outcome tool_error (list declaration)) :=
  match
    (let* l := convert_program p in
     let* _ := step_error fe_annotation (resolve_annotations p) in
     step_error fe_lookup (name_lookup l))
  with
  | Ok l' =>
      match analyze_generic run_fuel fuel (table_of l') (after_all (nodes_of l')) (items_of l') with
      | None => None
      | Some (Ok (items, g)) => Some (Ok (analysed items g))
      | Some (Err e) => Some (Err (te_analysis e))
      | Some Abort => Some Abort
      | Some UB => Some UB
      end
  | Err e => Some (Err (te_front e))
  | Abort => Some Abort
  | UB => Some UB
  end.

(** [analyze_parsed] (src/cli/compile.cpp:67-80). *)
Definition analyze_parsed (p : list pdecl) (source file : text) : run (list declaration) :=
  step (analyze p) (fun e => ErrorPrint.print_analysis_error file source (located p e) true).

(** [dump_tokens] (src/cli/main.cpp:35-45). *)
Definition dump_tokens (file : text) : run ending :=
  if negb (ends_with file (str ".bms")) then Some (Ok (ends 1 suffix_text))
  else
    let^ source := load_file file in
    let^ tokens := tokenize_file source file in
    let^ t := Some (print_tokens tokens source) in
    Some (Ok (ends 0 t)).

(** [dump_ast] (src/cli/main.cpp:47-66). *)
Definition dump_ast (file : text) : run ending :=
  let^ source := load_file file in
  if ends_with file (str ".bms") then
    let^ tokens := tokenize_file source file in
    let^ p := parse_tokenized tokens source file in
    let^ t := Some (ProgramTree.print_program_tree ProgramTree.dump_program_options p) in
    Some (Ok (ends 0 t))
  else if ends_with file (str ".bmd") then
    let^ document := parse_bmd_file source file in
    let^ t := Some (DocTree.print_document_tree arrange DocTree.dump_options source document) in
    Some (Ok (ends 0 t))
  else Some (Ok (ends 1 (unrecognized_suffix_text file))).

(** [write_html] (src/cli/glue.cpp:152-164); a document without a root is written like one with an empty root
    (src/bmd/html/doc_to_html.cpp:590-596). *)
Definition write_html (document : option BmdParse.bmd_node) : option (outcome document_error writer) :=
  doc_to_html arrange 2 [str "/css/code.css"; str "/css/main.css"]
    match document with
    | Some n => n
    | None => BmdParse.B_list (Source_Span 0 0 0 0) []
    end.

(** The conversion to a stream, and what follows it (src/cli/main.cpp:88-107): [shown] is how chunks appear on
    the console and [kept] how they are in the output file. *)
Definition converts (file source : text) (document : option BmdParse.bmd_node) (shown : list chunk -> text)
  (kept : list chunk -> option (text * text)) : run ending :=
  let partial := unfinished document in
  match write_html document with
  | None => None
  | Some (Ok v) => Some (Ok (Ending 0 (shown (w_out v)) (kept (w_out v))))
  | Some (Err e) =>
      Some match @print_document_error Empty_set file source e true with
           | Ok t => Ok (Ending 1 (shown partial ++ t) (kept partial))
           | Err x => match x with end
           | Abort => Ok (Ending 1 (shown partial ++ assertion_text) (kept partial))
           | UB => UB
           end
  | Some Abort => Some (Ok (Ending 1 (shown partial ++ assertion_text) (kept partial)))
  | Some UB => Some UB
  end.

(** [to_html] (src/cli/main.cpp:68-112). *)
Definition to_html (file : text) (out_file : option text) : run ending :=
  let^ source := load_file file in
  if ends_with file (str ".bms") then Some (Ok (ends 0 not_supported_text))
  else if ends_with file (str ".bmd") then
    let^ document := parse_bmd_file source file in
    match out_file with
    | None => converts file source document colored_page (fun _ => None)
    | Some name =>
        match output w name with
        | Uncreatable => Some (Ok (ends 1 (cannot_open_text name)))
        | Room n => converts file source document (fun _ => []) (fun l => Some (name, stored n (simple_page l)))
        end
    end
  else Some (Ok (ends 1 (unrecognized_suffix_text file))).

(** [check_semantics] (src/cli/main.cpp:114-129). *)
Definition check_semantics (file : text) : run ending :=
  if negb (ends_with file (str ".bms")) then Some (Ok (ends 1 suffix_text))
  else
    let^ source := load_file file in
    let^ tokens := tokenize_file source file in
    let^ p := parse_tokenized tokens source file in
    let^ a := analyze_parsed p source file in
    Some (Ok (ends 0 passed_text)).

(** [generate] (src/cli/main.cpp:131-160). *)
Definition generate (file language_name : text) : run ending :=
  if negb (ends_with file (str ".bms")) then Some (Ok (ends 1 suffix_text_generate))
  else
    match code_language_by_name language_name with
    | None => Some (Ok (ends 1 (unrecognized_language_text language_name)))
    | Some language =>
        let^ source := load_file file in
        let^ tokens := tokenize_file source file in
        let^ p := parse_tokenized tokens source file in
        let^ a := analyze_parsed p source file in
        let '(out, r) := generate_code language default_options a empty_code in
        match r with
        | Ok _ => let^ t := Some (print_code_string out true) in Some (Ok (ends 0 t))
        | Err _ => Some (Ok (ends 1 not_generated_text))
        | Abort => Some Abort
        | UB => Some UB
        end
    end.

(** The commands (src/cli/main.cpp:192-224). *)
Definition command (args : list text) : run ending :=
  let program_name := match args with [] => str "bitmanip" | p :: _ => p end in
  match args with
  | _ :: c :: file :: rest =>
      if text_eqb c (str "dump_tokens") then dump_tokens file
      else if text_eqb c (str "dump_ast") then dump_ast file
      else if text_eqb c (str "verify") then check_semantics file
      else if text_eqb c (str "generate") then
        match rest with
        | [] => Some (Ok (ends 1 (help_text program_name)))
        | language :: _ => generate file language
        end
      else if text_eqb c (str "html") then
        to_html file match rest with [] => None | name :: _ => Some name end
      else Some (Ok (ends 1 (unknown_command_text c)))
  | _ => Some (Ok (ends 1 (help_text program_name)))
  end.

(** [main] (src/cli/main.cpp:190-239): [None] is a run without end. *)
Definition main (args : list text) : option (outcome unit ending) :=
  match command args with
  | None => None
  | Some (Ok e) | Some (Err e) => Some (Ok e)
  | Some Abort => Some (Ok (ends 1 assertion_text))
  | Some UB => Some UB
  end.

End Tool.
