(** The tests of the project that compile files and look at the result. Models
    src/test/program_file_testing.cpp and .hpp, src/test/diagnostic_policy.hpp, src/test/compilation_stage.hpp and
    src/bms/basic_diagnostic_consumer.hpp.

    - What is printed is left out, but printing may fail; colors are an argument.
    - [m_state] is [CONTINUE], and [m_failed] is [false], for as long as a test runs: every call that changes them
      returns another action, with which the test ends (src/test/program_file_testing.cpp:389-448).  Hence they are not
      part of the model, and the assertions about [m_state] hold.
    - The consumer of diagnostics holds the one error with which a step has failed. *)
From Coq Require Import ZArith Ascii String List Bool.
From Verif Require Import Prelude Text Types Ops Tables Tokenizer Parse VM NameLookup Convert FrontEnd Diagnostics ErrorPrint Tool.
Import ListNotations.
Open Scope string_scope.
Open Scope list_scope.
Open Scope Z_scope.

(** [Testing_Stage] and its order (src/test/compilation_stage.hpp:8-13). *)
Inductive stage : Type := stage_load_file | stage_tokenize | stage_parse | stage_analyze | stage_introspect.
Definition stage_index (s : stage) : nat := (* src/test/compilation_stage.hpp:10-13 *)
  match s with
  | stage_load_file => 0 | stage_tokenize => 1 | stage_parse => 2 | stage_analyze => 3 | stage_introspect => 4
  end.
Definition stage_leb (a b : stage) : bool := Nat.leb (stage_index a) (stage_index b). (* src/test/compilation_stage.hpp:10-13 *)

(** [Policy_Action] (src/test/diagnostic_policy.hpp:16-23). *)
Inductive action : Type := act_SUCCESS | act_FAILURE | act_CONTINUE.

(** [==] on the enumerations (src/test/program_file_testing.cpp:81-88, 180, 240, 252). *)
Definition tokenize_code_eq_dec (a b : tokenize_error_code) : {a = b} + {a <> b}. decide equality. Defined.
Definition rule_eq_dec (a b : grammar_rule) : {a = b} + {a <> b}. decide equality. Defined. (* src/test/program_file_testing.cpp:240 *)
Definition error_code_eq_dec (a b : error_code) : {a = b} + {a <> b}. decide equality. Defined. (* src/test/program_file_testing.cpp:81 *)
Definition eval_error_eq_dec (a b : eval_error) : {a = b} + {a <> b}. decide equality. Defined. (* src/test/program_file_testing.cpp:86 *)
Definition exec_code_eq_dec (a b : exec_code) : {a = b} + {a <> b}. decide equality; apply eval_error_eq_dec. Defined. (* src/test/program_file_testing.cpp:88 *)

(** [Parse_Error_Expectations] (src/test/program_file_testing.hpp:14-18). *)
Record parse_expectations : Type :=
  Parse_Expectations { px_rule : option grammar_rule; px_line : option nat; px_type : option token_type }.

(** [m_detail] (src/test/program_file_testing.hpp:26). *)
Inductive detail : Type := detail_none | detail_evaluation (e : eval_error) | detail_execution (e : exec_code).

(** [Analysis_Error_Code_Expectation] (src/test/program_file_testing.hpp:23-49) with its constructors (29-44). *)
Record code_expectation : Type := Code_Expectation { ce_code : error_code; ce_detail : detail }.
Definition expect_code (c : error_code) : code_expectation := Code_Expectation c detail_none. (* src/test/program_file_testing.hpp:29-32 *)
Definition expect_evaluation (e : eval_error) : code_expectation := (* src/test/program_file_testing.hpp:34-38 *)
  Code_Expectation ac_evaluation_error (detail_evaluation e).
Definition expect_execution (e : exec_code) : code_expectation := (* src/test/program_file_testing.hpp:40-44 *)
  Code_Expectation ac_execution_error (detail_execution e).

(** [Analysis_Error_Expectations] (src/test/program_file_testing.hpp:51-55). *)
Record analysis_expectations : Type :=
  Analysis_Expectations { ax_code : code_expectation; ax_fail_line : option Z; ax_cause_line : option Z }.

(** [met_by] (src/test/program_file_testing.cpp:79-91). [get] asserts that the alternative is active
    (src/common/variant.hpp:494-502); a member of the [union] that was not written is read (src/bms/analysis_error.hpp:
    224-234). *)
Definition met_by {E} (x : code_expectation) (e : ErrorPrint.analysis_error) : outcome E bool :=
  if error_code_eq_dec (ce_code x) (code_of e) then
    match ce_code x with
    | ac_evaluation_error =>
        match ae_code e, ce_detail x with
        | d_evaluation a, detail_evaluation b => Ok (if eval_error_eq_dec a b then true else false)
        | d_evaluation _, _ => Abort
        | _, _ => UB
        end
    | ac_execution_error =>
        match ae_code e, ce_detail x with
        | d_execution a, detail_execution b => Ok (if exec_code_eq_dec a b then true else false)
        | d_execution _, _ => Abort
        | _, _ => UB
        end
    | _ => Ok true
    end
  else Ok false.

(** [print_analysis_error_name] (src/test/program_file_testing.cpp:29-46): whether the details of the code can be read. *)
Definition error_name_read {E} (e : ErrorPrint.analysis_error) : outcome E unit :=
  match ae_code e with
  | d_plain ac_execution_error | d_plain ac_evaluation_error | d_execution_lost => UB
  | _ => Ok tt
  end.

(** The policies (src/test/program_file_testing.cpp:105-114, 156-165, 207-217, 284-296). *)
Inductive policy : Type :=
| Expect_Success (max_stage : stage)
| Expect_Tokenize_Error (expected : tokenize_error_code)
| Expect_Parse_Error (x : parse_expectations)
| Expect_Analysis_Error (x : analysis_expectations).

(** The constructors assert that lines count from one (src/test/program_file_testing.cpp:216, 294-295). *)
Definition line_positive (l : option Z) : bool := match l with Some n => 0 <? n | None => true end.
Definition construct {E} (p : policy) : outcome E policy := (* src/test/program_file_testing.cpp:213-217, 290-296 *)
  match p with
  | Expect_Parse_Error x => assert_then (match px_line x with Some 0%nat => false | _ => true end) (Ok p)
  | Expect_Analysis_Error x => assert_then (line_positive (ax_fail_line x)) (assert_then (line_positive (ax_cause_line x)) (Ok p))
  | _ => Ok p
  end.

(** [done] (src/test/program_file_testing.cpp:146-151, 196-202, 273-279, 368-378). *)
Definition done {E} (p : policy) (s : stage) : outcome E action :=
  match p with
  | Expect_Success max => Ok (if stage_leb max s then act_SUCCESS else act_CONTINUE)
  | Expect_Tokenize_Error _ =>
      assert_then (stage_leb s stage_tokenize)
        (Ok match s with stage_tokenize => act_FAILURE | _ => act_CONTINUE end)
  | Expect_Parse_Error _ =>
      assert_then (stage_leb s stage_parse)
        (Ok match s with stage_parse => act_FAILURE | _ => act_CONTINUE end)
  | Expect_Analysis_Error _ => Ok match s with stage_analyze => act_FAILURE | _ => act_CONTINUE end
  end.

(** [is_success] of a policy that has not been told of an error (src/test/program_file_testing.cpp:116-119, 167-170, 219-222,
    298-301). *)
Definition is_success (p : policy) : bool := match p with Expect_Success _ => true | _ => false end.

(** [error(IO_Error_Code)] (src/test/program_file_testing.cpp:120-125, 171-176, 223-228, 302-307). *)
Definition io_error {E} (p : policy) : outcome E action := Ok act_FAILURE.

Section Testing.

Variables (run_fuel fuel : nat).
(** As in [Tool.v]: the error of the analysis with its places (src/bms/analysis_error.hpp:180-300). *)
Variable located : list pdecl -> tool_error -> ErrorPrint.analysis_error.
(** [should_print_colors] (src/test/program_file_testing.cpp:22). *)
Variable colors : bool.
Variable w : world.

(** [error(const bms::Tokenize_Error&)] (src/test/program_file_testing.cpp:126-131, 177-187, 229-234, 308-313). *)
Definition tokenize_failed (p : policy) (file source : text) (e : tokenize_error) : outcome Empty_set action :=
  match p with
  | Expect_Tokenize_Error c =>
      if tokenize_code_eq_dec (te_code e) c then Ok act_SUCCESS
      else let* _ := print_tokenize_error file source e colors in Ok act_FAILURE
  | _ => let* _ := print_tokenize_error file source e colors in Ok act_FAILURE
  end.

(** The expectations about errors of the parser (src/test/program_file_testing.cpp:239-260). *)
Definition parse_expected (x : parse_expectations) (tokens : list token) (e : parse_error) : bool :=
  match px_rule x with Some r => if rule_eq_dec (pe_rule e) r then true else false | None => true end
  && match px_line x with Some n => Nat.eqb (line (tok_pos (fail_token tokens e))) (n - 1) | None => true end
  && match px_type x with Some t => token_type_eqb (tok_type (fail_token tokens e)) t | None => true end.

(** [error(const bms::Parse_Error&)] (src/test/program_file_testing.cpp:132-137, 188-191, 235-268, 314-319). *)
Definition parse_failed (p : policy) (file source : text) (tokens : list token) (e : parse_error)
  : outcome Empty_set action :=
  match p with
  | Expect_Tokenize_Error _ => Abort
  | Expect_Parse_Error x =>
      if parse_expected x tokens e then Ok act_SUCCESS
      else let* _ := print_parse_error file source tokens e colors in Ok act_FAILURE
  | _ => let* _ := print_parse_error file source tokens e colors in Ok act_FAILURE
  end.

(** The expectation about a line (src/test/program_file_testing.cpp:330-339, 348-355): [pos] must be there. *)
Definition line_expected (l : option Z) (pos : option position) : outcome Empty_set bool :=
  match l with
  | None => Ok true
  | Some n => match pos with
              | None => Abort
              | Some q => Ok (Z.of_nat (line q) =? n - 1)
              end
  end.

(** The expectations about errors of the analysis (src/test/program_file_testing.cpp:323-358). *)
Definition analysis_expected (x : analysis_expectations) (e : ErrorPrint.analysis_error) : outcome Empty_set bool :=
  let* met := met_by (ax_code x) e in
  if negb met then let* _ := error_name_read e in Ok false
  else
    let* fail := line_expected (ax_fail_line x) (di_pos (ae_fail e)) in
    if negb fail then Ok false
    else match ax_cause_line x, ae_cause e with
         | Some _, None => Ok false
         | l, _ => line_expected l (cause_pos e)
         end.

(** [error(const bms::Analysis_Error&)] (src/test/program_file_testing.cpp:138-145, 192-195, 269-272, 321-366). *)
Definition analysis_failed (p : policy) (file source : text) (e : ErrorPrint.analysis_error)
  : outcome Empty_set action :=
  match p with
  | Expect_Tokenize_Error _ | Expect_Parse_Error _ => Abort
  | Expect_Success _ => let* _ := ErrorPrint.print_analysis_error file source e colors in Ok act_FAILURE
  | Expect_Analysis_Error x =>
      let* expected := analysis_expected x e in
      if expected then Ok act_SUCCESS
      else let* _ := ErrorPrint.print_analysis_error file source e colors in Ok act_FAILURE
  end.

(** The result of a test: none if it does not end, and [Abort] also for exceptions. *)
Definition verdict : Type := option (outcome Empty_set bool). (* src/test/program_file_testing.cpp:389-392 *)
Definition verdict_of (a : outcome Empty_set action) (k : verdict) : verdict := (* src/test/program_file_testing.cpp:402-406 *)
  match a with
  | Ok act_SUCCESS => Some (Ok true)
  | Ok act_FAILURE => Some (Ok false)
  | Ok act_CONTINUE => k
  | Err x => match x with end
  | Abort => Some Abort
  | UB => Some UB
  end.

(** [return policy.error(...) == Policy_Action::SUCCESS] (src/test/program_file_testing.cpp:400, 411, 421, 432). *)
Definition last_of (a : outcome Empty_set action) : verdict := verdict_of a (Some (Ok false)).

(** A step that may fail with an error (src/test/program_file_testing.cpp:410-412, 420-422, 431-433). *)
Definition test_step {E A} (m : option (outcome E A)) (failed : E -> outcome Empty_set action) (k : A -> verdict)
  : verdict :=
  match m with
  | None => None
  | Some (Ok a) => k a
  | Some (Err e) => last_of (failed e)
  | Some Abort => Some Abort
  | Some UB => Some UB
  end.

(** [test_validity] (src/test/program_file_testing.cpp:389-448). *)
Definition test_validity (file : text) (p : policy) (introspect : option (list declaration -> outcome Empty_set bool))
  : verdict :=
  match @construct Empty_set p with
  | Ok _ =>
      let full_path := str "test/" ++ file in
      match input w full_path with
      | Unopenable => last_of (io_error p)
      | Broken => Some Abort
      | Content t =>
          match read_chunks (S (length t)) 4096 t [] with
          | None => None
          | Some source =>
              verdict_of (done p stage_load_file)
                (test_step (tokenize source) (tokenize_failed p full_path source) (fun tokens =>
                   verdict_of (done p stage_tokenize)
                     (test_step (parse (lexemes source tokens)) (parse_failed p full_path source tokens) (fun tree =>
                        verdict_of (done p stage_parse)
                          (test_step (analyze run_fuel fuel tree)
                             (fun e => analysis_failed p full_path source (located tree e)) (fun program =>
                               verdict_of (done p stage_analyze)
                                 (if negb (is_success p) then Some (Ok false)
                                  else match introspect with
                                       | None => Some (Ok true)
                                       | Some f => Some (f program)
                                       end)))))))
          end
      end
  | Err x => match x with end
  | Abort => Some Abort
  | UB => Some UB
  end.

(** [test_for_success] (src/test/program_file_testing.cpp:460-464). *)
Definition test_for_success (file : text) (until_stage : stage) : verdict :=
  test_validity file (Expect_Success until_stage) None.
(** [test_for_success_then_introspect] (src/test/program_file_testing.cpp:466-473). *)
Definition test_for_success_then_introspect (file : text) (f : list declaration -> outcome Empty_set bool) : verdict :=
  test_validity file (Expect_Success stage_introspect) (Some f).
(** [test_for_diagnostic] (src/test/program_file_testing.cpp:475-491), for the three kinds of errors. *)
Definition test_for_tokenize_error (file : text) (c : tokenize_error_code) : verdict := (* src/test/program_file_testing.cpp:475-479 *)
  test_validity file (Expect_Tokenize_Error c) None.
Definition test_for_parse_error (file : text) (x : parse_expectations) : verdict := (* src/test/program_file_testing.cpp:481-485 *)
  test_validity file (Expect_Parse_Error x) None.
Definition test_for_analysis_error (file : text) (x : analysis_expectations) : verdict := (* src/test/program_file_testing.cpp:487-491 *)
  test_validity file (Expect_Analysis_Error x) None.

End Testing.
