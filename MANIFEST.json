{
 "claims": [
  {
   "property": "C01",
   "status": "proved",
   "theorems": [
    "C01_uint_ring_operators",
    "C01_uint_bitwise_operators",
    "C01_uint_negation",
    "C01_uint_complement"
   ],
   "note": "All widths 1..127 (every width the Concrete_Type constructor admits), all in-range operands."
  },
  {
   "property": "C02",
   "status": "partial",
   "theorems": [
    "C02_uint_division",
    "C02_int_division_partial",
    "C02_zero_divisor",
    "C02_zero_divisor_error",
    "C02_int_division_refuted"
   ],
   "note": "Proved for all Uint operands and all Int operands except (-2^127, -1), which is undefined behaviour (refutation theorem); zero divisor proved for all operand types."
  },
  {
   "property": "C03",
   "status": "partial",
   "theorems": [
    "C03_shift_left_partial",
    "C03_shift_right_partial",
    "C03_shift_refuted",
    "C03_shift_too_much_never_reported"
   ],
   "note": "Shift values proved for amounts below 128; amounts >= 128 are undefined behaviour and shift_too_much is never reported (both refuted)."
  },
  {
   "property": "C04",
   "status": "partial",
   "theorems": [
    "C04_binary_defined_partial",
    "C04_binary_abort_exactly",
    "C04_binary_undefined_exactly",
    "C04_unary_undefined_exactly",
    "C04_refuted"
   ],
   "note": "False as stated (refuted: Bool == aborts, signed overflow). Proved: exact characterisation of every operand combination that aborts or is undefined, and definedness for all others."
  },
  {
   "property": "C05",
   "status": "proved",
   "theorems": [
    "C05_binary_type_check_success",
    "C05_binary_type_check_failure",
    "C05_unary_type_check_success",
    "C05_unary_type_check_failure",
    "C05_if_type_check",
    "C05_type_checks_total"
   ],
   "note": "Unary, binary and if-expression type checks against evaluation, both directions."
  },
  {
   "property": "C06",
   "status": "proved",
   "theorems": [
    "C06_binary_preserves",
    "C06_unary_preserves",
    "C06_conversion_preserves",
    "C06_if_preserves",
    "C06_builtin_preserves"
   ],
   "note": "Unary, binary, conversion, if-expression and builtin."
  },
  {
   "property": "C07",
   "status": "proved",
   "theorems": [
    "C07_conversion_exact",
    "C07_conversion_errors",
    "C07_conversion_identity",
    "C07_conversion_transitive",
    "C07_truncating_conversion",
    "C07_can_represent"
   ],
   "note": "Exact success condition, error kinds, identity, transitivity, truncation, can_represent."
  },
  {
   "property": "C08",
   "status": "proved",
   "theorems": [
    "C08_comparison_meaning",
    "C08_trichotomy",
    "C08_transitive",
    "C08_mixed_comparison"
   ],
   "note": "Meaning of all six comparisons, trichotomy, transitivity, mixed operands."
  },
  {
   "property": "C09",
   "status": "partial",
   "theorems": [
    "C09_binary_known_result",
    "C09_binary_unknown_result_partial",
    "C09_binary_error",
    "C09_unary",
    "C09_if_expression",
    "C09_conversion",
    "C09_binary_abort_exactly",
    "C09_refuted"
   ],
   "note": "Known-result and error clauses proved for all operators; unknown-result clause proved where concrete evaluation is defined; false as stated (refuted) because comparing Bools aborts and dividing an unknown Uint by a constant aborts; exact abort condition proved."
  },
  {
   "property": "C10",
   "status": "proved",
   "theorems": [
    "C10_assert_unknown",
    "C10_assert_concrete"
   ],
   "note": "Concrete and possibly-unknown argument lists."
  },
  {
   "property": "C11",
   "status": "proved",
   "theorems": [
    "C11_and_tightest",
    "C11_or_tightest",
    "C11_not_tightest",
    "C11_equals_tightest",
    "C11_not_equals_tightest",
    "C11_bool_embedding",
    "C11_algebra"
   ],
   "note": "Kleene connectives as exact images over Booleans, plus laws; also equals/not_equals."
  },
  {
   "property": "C12",
   "status": "partial",
   "theorems": [
    "C12_fitting_value_exact_partial",
    "C12_accepted_modulo_partial",
    "C12_binary_exact",
    "C12_near_overflow_rejected_partial",
    "C12_overflow_refuted",
    "C12_int_literal_value_partial",
    "C12_negative_literal_value_partial",
    "C12_int_literal_refuted"
   ],
   "note": "False as stated (overflow in bases 8/10/16 accepted, literals >= 2^127 become negative: refuted). Proved: exact for every value that fits, right modulo 2^128 whenever accepted, exact and overflow-safe in base 2."
  },
  {
   "property": "C13",
   "status": "partial",
   "theorems": [
    "C13_recognised_is_maximal_literal",
    "C13_no_digits_exactly",
    "C13_prefix_only_exactly",
    "C13_recognised_has_value_partial",
    "C13_upper_case_refuted"
   ],
   "note": "Recogniser fully characterised. Value clause proved without upper-case hexadecimal digits, refuted with them."
  },
  {
   "property": "C14",
   "status": "partial",
   "theorems": [
    "C14_line_comment",
    "C14_block_comment",
    "C14_string_literal_partial",
    "C14_string_literal_end_unique",
    "C14_same_line_refuted"
   ],
   "note": "Line and block comments proved in full; string literals end at the first unescaped quote, but the same-line clause is refuted."
  },
  {
   "property": "C15",
   "status": "proved",
   "theorems": [
    "C15_tokens_tile_source"
   ],
   "note": "For every source on which tokenization succeeds."
  },
  {
   "property": "C16",
   "status": "partial",
   "theorems": [
    "C16_longest_match_partial",
    "C16_token_text_refuted"
   ],
   "note": "Token types obey maximal munch for all sources; token text equals the spelling except for ! and && whose tokens are too long (refuted). Identifiers do not begin with digits."
  },
  {
   "property": "C17",
   "status": "partial",
   "theorems": [
    "C17_positions_exact_partial",
    "C17_line_refuted",
    "C17_column_refuted"
   ],
   "note": "Exact without tabs, carriage returns and newlines inside string/!/&& tokens; refuted otherwise."
  },
  {
   "property": "C18",
   "status": "partial",
   "theorems": [
    "C18_terminates",
    "C18_total_partial",
    "C18_not_refuted",
    "C18_comment_at_end_refuted"
   ],
   "note": "Termination proved; totality proved unless !/&& is within the last characters or the text ends in a slash; both exceptions refuted."
  },
  {
   "property": "C19",
   "status": "proved",
   "theorems": [
    "C19_stack_of_maps",
    "C19_stack_of_maps_from_any_state",
    "C19_null_key_rejected"
   ],
   "note": "Every operation history from the empty map, and from any data."
  },
  {
   "property": "C20",
   "status": "partial",
   "theorems": [
    "C20_advances_exactly_partial",
    "C20_reports_exactly_partial",
    "C20_effect_unique",
    "C20_error_unique",
    "C20_crashes_exactly",
    "C20_program_unchanged",
    "C20_total_refuted"
   ],
   "note": "Exact characterisation of advance, error and crash for every instruction and every well-formed machine; jumps to before the program start are carried out and then throw (refuted), so totality is false."
  },
  {
   "property": "C21",
   "status": "partial",
   "theorems": [
    "C21_accepted_partial",
    "C21_uninitialized_refuted",
    "C21_jump_refuted",
    "C21_errors_partial"
   ],
   "note": "Proved end to end for every accepted program whose functions end in return and need no implicit conversion: runs end only with the return, an operation error or an uninitialised variable. Refuted as stated for accepted programs (uninitialised variables, functions without return)."
  },
  {
   "property": "C22",
   "status": "partial",
   "theorems": [
    "C22_jump_or_call_partial",
    "C22_counter_unchanged",
    "C22_infinite_loop_refuted",
    "C22_tail_recursion_refuted"
   ],
   "note": "Holds for unconditional jumps and calls; refuted for conditional jumps, returns and tail recursion."
  },
  {
   "property": "C23",
   "status": "partial",
   "theorems": [
    "C23_no_symbolic_jump",
    "C23_target_range_partial",
    "C23_target_inside_partial",
    "C23_programs_closed_partial",
    "C23_inside_refuted"
   ],
   "note": "No symbolic jumps; targets within the function or one past its end (strictly inside refuted; proved for functions ending in return and for Void functions)."
  },
  {
   "property": "C24",
   "status": "partial",
   "theorems": [
    "C24_expression_partial"
   ],
   "note": "Every expression and machine, against the evaluator that trusts recorded constants and omits branch conversions; for accepted direct programs that evaluator is proved equal to the faithful one."
  },
  {
   "property": "C25",
   "status": "partial",
   "theorems": [
    "C25_accepted_diverges_partial",
    "C25_statement_partial",
    "C25_diverges_partial"
   ],
   "note": "Every statement, loop count and machine, including divergence, against the same evaluator; for accepted direct programs against the faithful one."
  },
  {
   "property": "C26",
   "status": "partial",
   "theorems": [
    "C26_accepted_value_partial",
    "C26_accepted_error_partial",
    "C26_call_partial",
    "C26_run_value_partial",
    "C26_run_error_partial"
   ],
   "note": "Calls from every machine, runs from function entries, and runs of every accepted direct program against the faithful evaluator; programs laid out callee-first without recursion."
  },
  {
   "property": "C27",
   "status": "partial",
   "theorems": [
    "C27_statements_partial",
    "C27_variable_refuted"
   ],
   "note": "Proved for the source semantics of every accepted program; refuted for generated code (let and assignment do not convert), see C27_variable_refuted."
  },
  {
   "property": "C28",
   "status": "partial",
   "theorems": [
    "C28_returns_partial",
    "C28_runs_on_refuted",
    "C28_no_code_refuted"
   ],
   "note": "Proved for accepted programs whose functions end in a return statement; refuted otherwise: a function may lack a return statement and runs into the code that follows."
  },
  {
   "property": "C29",
   "status": "partial",
   "theorems": [
    "C29_folding_partial",
    "C29_code_partial",
    "C29_constant_without_value_refuted"
   ],
   "note": "Every expression of every accepted program: a recorded value is what evaluation yields and what generated code pushes. Refuted for constants accepted without a value."
  },
  {
   "property": "C30",
   "status": "partial",
   "theorems": [
    "C30_calls_partial",
    "C30_expressions_partial",
    "C30_value_refuted",
    "C30_type_error_refuted"
   ],
   "note": "Every call and expression of every accepted program, in the source semantics with conversions; refuted for generated code, where if-expressions, let and assignment do not convert."
  },
  {
   "property": "C31",
   "status": "partial",
   "theorems": [
    "C31_scoping_partial",
    "C31_unique",
    "C31_no_shadowing",
    "C31_rejected",
    "C31_defined_partial",
    "C31_ready_partial",
    "C31_own_initialiser_refuted",
    "C31_abort_refuted"
   ],
   "note": "Lookup succeeds exactly on the lexically scoped programs without shadowing, with the unique resolution; rejects only others. Refuted in two details: a declaration is visible in its own initialiser, and an undefined call in a parameter width aborts."
  },
  {
   "property": "C34",
   "status": "proved",
   "theorems": [
    "C34_restores",
    "C34_thrown",
    "C34_commits",
    "C34_appends",
    "C34_bms_generator",
    "C34_bms_errors",
    "C34_c_generator",
    "C34_c_errors"
   ],
   "note": "Any tree of appends, attempts, parenthesised scopes and failed assertions: an uncommitted or abandoned attempt restores text and spans exactly, a committed one keeps what its body appended."
  },
  {
   "property": "C35",
   "status": "partial",
   "theorems": [
    "C35_spans_partial",
    "C35_spans_kept_partial",
    "C35_pieces_partial",
    "C35_resize_refuted",
    "C35_grow_refuted",
    "C35_bms_generator_partial",
    "C35_c_generator_partial"
   ],
   "note": "For every history of appends and attempts. False for a direct call of the public resize with a length the string never had (refuted); nothing in the code base makes such a call."
  },
  {
   "property": "C36",
   "status": "partial",
   "theorems": [
    "C36_no_brackets",
    "C36_only_text",
    "C36_distinct_partial",
    "C36_unescape_partial",
    "C36_ampersand_refuted"
   ],
   "note": "No angle bracket gets through, for every text, style and writer state. Distinct outputs are proved for texts without '&'; refuted with '&', which is not escaped."
  },
  {
   "property": "C37",
   "status": "partial",
   "theorems": [
    "C37_attributes_partial",
    "C37_quote_refuted",
    "C37_white_space_refuted",
    "C37_self_closing_refuted"
   ],
   "note": "Proved for all attribute lists whose values hold no double quote, tab, line feed, form feed or carriage return; refuted for a double quote, a tab, and for values without quotes before '/>'."
  },
  {
   "property": "C38",
   "status": "partial",
   "theorems": [
    "C38_markup_partial",
    "C38_balanced_partial",
    "C38_depth_partial",
    "C38_nested_partial",
    "C38_names_refuted",
    "C38_initial_refuted",
    "C38_no_preamble_refuted",
    "C38_open_tag_refuted"
   ],
   "note": "For all accepted histories with sound arguments the markup read from the text is that of the calls, the depth is the number of open elements, and matched calls nest. Refuted: is_done is true initially, without a preamble, and inside a tag; names are not compared."
  },
  {
   "property": "C39",
   "status": "partial",
   "theorems": [
    "C39_total_partial",
    "C39_fuel_irrelevant",
    "C39_plain_text_tame",
    "C39_empty_block_refuted",
    "C39_comment_at_end_refuted",
    "C39_comment_in_title_refuted",
    "C39_unknown_name_refuted",
    "C39_termination_refuted"
   ],
   "note": "Proved for tame documents (no empty block, no directive name sorting behind \"ul\", comments only after white space, no comment opener at the very end); refuted for each of the other kinds, including one on which the parser does not terminate."
  },
  {
   "property": "C40",
   "status": "partial",
   "theorems": [
    "C40_matching_brace_partial",
    "C40_content_unique",
    "C40_no_block",
    "C40_documents",
    "C40_empty_refuted"
   ],
   "note": "Exact characterisation of raw blocks by balanced content, also in whole documents; the empty block fails an assertion (refuted)."
  },
  {
   "property": "C42",
   "status": "partial",
   "theorems": [
    "C42_known_names_found",
    "C42_only_known_names",
    "C42_unknown_names_partial",
    "C42_beyond_end_read",
    "C42_beyond_refuted"
   ],
   "note": "Known names are found and only they are; unknown names are rejected unless they sort behind \"ul\", for which the entry past the end of the table is read (refuted)."
  },
  {
   "property": "C43",
   "status": "partial",
   "theorems": [
    "C43_binary_operator_meaning_partial",
    "C43_unary_operator_meaning",
    "C43_only_greater_or_equal_unreachable",
    "C43_greater_or_equal_refuted"
   ],
   "note": "Every binary operator token except >= (refuted), all unary ones."
  },
  {
   "property": "C44",
   "status": "partial",
   "theorems": [
    "C44_length_of_spelling_partial",
    "C44_retokenize_partial",
    "C44_code_name",
    "C44_spellings_distinct",
    "C44_refuted"
   ],
   "note": "All fixed spellings except ! and && (refuted)."
  },
  {
   "property": "C45",
   "status": "proved",
   "theorems": [
    "C45_irreflexive",
    "C45_antisymmetric",
    "C45_transitive",
    "C45_binary_related"
   ],
   "note": "All pairs and triples of expression kinds."
  },
  {
   "property": "C46",
   "status": "partial",
   "theorems": [
    "C46_document_partial",
    "C46_block_attributes_abort",
    "C46_block_attributes_refuted",
    "C46_name_refuted"
   ],
   "note": "Proved for all trees with sound arguments in which elements formatted as blocks have no attributes; refuted for block-formatted elements with attributes (always an assertion failure) and for names beginning with a dash."
  },
  {
   "property": "C47",
   "status": "partial",
   "theorems": [
    "C47_comment_partial",
    "C47_bang_refuted",
    "C47_start_refuted"
   ],
   "note": "Proved for comments that do not begin with > or -> and do not hold --!>; refuted for those."
  },
  {
   "property": "C48",
   "status": "partial",
   "theorems": [
    "C48_passthrough_tag_partial",
    "C48_distinct_tags_partial",
    "C48_superscript_refuted"
   ],
   "note": "Proved for all pass-through directives but superscript, which is written as a subscript (refuted)."
  },
  {
   "property": "C49",
   "status": "partial",
   "theorems": [
    "C49_placed_partial",
    "C49_paragraphs_refuted"
   ],
   "note": "Proved for all parsed documents, except that children of a list may overlap: a paragraph before a heading covers the heading (refuted). Names and values of arguments are names, or numbers in the range of 64 bits."
  },
  {
   "property": "C50",
   "status": "proved",
   "theorems": [
    "C50_fits",
    "C50_lists"
   ],
   "note": "Proved for all parsed documents."
  },
  {
   "property": "C41",
   "status": "partial",
   "theorems": [
    "C41_accepted",
    "C41_accepted_if",
    "C41_binding_unique",
    "C41_rejected",
    "C41_total",
    "C41_resolved",
    "C41_presentation_partial",
    "C41_presentation_refuted"
   ],
   "note": "Binding, rejection and totality are proved for all argument lists the parser can produce; the resolved annotation keeps values in argument order, so it does not present them under their parameters (refuted)."
  },
  {
   "property": "C51",
   "status": "partial",
   "theorems": [
    "C51_only_programs_partial",
    "C51_commas_refuted",
    "C51_strings_refuted"
   ],
   "note": "Full statement refuted twice (f(a b) without a comma and string literals as expressions are accepted). Proved for all tokens: whatever is accepted is derived, with its tree, by the grammar relaxed in exactly these two points, with comparisons chosen by the parser's look-ahead."
  },
  {
   "property": "C52",
   "status": "partial",
   "theorems": [
    "C52_every_program_partial",
    "C52_without_comparisons_partial",
    "C52_unambiguous",
    "C52_argument_refuted",
    "C52_condition_refuted",
    "C52_else_refuted"
   ],
   "note": "Full statement refuted three times (f(a, b == c), a if b else c == d, annotations between else and if). Proved for all programs of the grammar whose comparisons are the ones that the look-ahead finds; in particular for all programs without comparison operators. Corollary: that grammar is unambiguous."
  },
  {
   "property": "C53",
   "status": "partial",
   "theorems": [
    "C53_answers_partial",
    "C53_answers_tokens_partial",
    "C53_annotation_refuted"
   ],
   "note": "Full statement refuted: an error inside of an annotation's argument list aborts. Proved for all source texts: otherwise the parser ends with a program or an error at an end of the tokens; it aborts only if an annotation name is followed by a parenthesis that starts no argument list. The parser's call-stack depth is not modelled."
  },
  {
   "property": "C54",
   "status": "partial",
   "theorems": [
    "C54_unsigned_partial",
    "C54_signed_partial",
    "C54_padding_refuted",
    "C54_injective_refuted"
   ],
   "note": "Full statement refuted: numbers of 2^64 and above are printed in parts of 19 digits without padding, so 10^20 prints as 100 and printing is not injective. Proved for all 128-bit integers: the output is right iff the lower parts have no leading zero, in particular below 2^64."
  },
  {
   "property": "C32",
   "status": "partial",
   "theorems": [
    "C32_enough_parentheses_partial",
    "C32_round_trip_partial",
    "C32_whenever_foreseen_partial",
    "C32_conversion_refuted",
    "C32_negation_refuted",
    "C32_argument_refuted",
    "C32_parentheses_refuted"
   ],
   "note": "False as stated, four refutations: a converted binary expression is printed without parentheses (`a + 10 as Int`), `!` is tokenized three characters long so `!abc` comes back as `!c`, and the parser's look-ahead for comparisons rejects `f(a, a == 10)` and `(a + 10) & (a == 10)`. Proved for all other expressions of any depth and all options that indent with whitespace: the printed tokens belong to the documented grammar with the same tree; the parser returns this tree if there are no comparisons, or a comparison at the outside, or an if-expression of such parts, and whenever the parser's look-ahead finds a comparison operator exactly where there is a comparison."
  },
  {
   "property": "C55",
   "status": "partial",
   "theorems": [
    "C55_documented_partial",
    "C55_round_trip_partial",
    "C55_else_refuted",
    "C55_call_refuted",
    "C55_requires_refuted",
    "C55_declared_type_refuted"
   ],
   "note": "Programs of any size; annotations are not part of the model's syntax tree. False as stated: `else` is not printed before a block, nor the semicolon after a call, nor a requires clause, and the look-ahead for comparisons reaches from a declared type's width into the initialiser. Proved for programs without these: the printed program belongs to the documented grammar with the same tree, and the parser returns this tree if all expressions are recognised (see C32) and no signature contains a comparison."
  },
  {
   "property": "C33",
   "status": "partial",
   "theorems": [
    "C33_grouping_partial",
    "C33_parentheses_partial",
    "C33_right_operand_refuted",
    "C33_signs_refuted",
    "C33_constant_refuted",
    "C33_conditional_refuted",
    "C33_constant_name_refuted",
    "C33_keyword_refuted"
   ],
   "note": "False as stated. The expression grammar of C (max-munch tokens, precedence levels, casts, calls, increments) is given as a separate specification and proved unambiguous. Proved for all expressions without conditional expressions (or one in the else branch of another): the text has exactly one reading, and it is the tree of the BMS expression exactly if always_parenthesize is set or no right operand has an operator of the same level; signs have to be kept apart. Proved for all expressions: parentheses match exactly without conditional expressions, or with a top-level one that contains exactly one other. Refuted: a - (a - a), -(-a), negative inlined constants, every single conditional expression, constant names in C23 mode, names that are C keywords. Not covered: literals whose digits come out wrong (C54)."
  },
  {
   "property": "C56",
   "status": "partial",
   "theorems": [
    "C56_structure",
    "C56_identities",
    "C56_converts_partial",
    "C56_comparison_refuted"
   ],
   "note": "Structure and identities proved for all programs. Full statement refuted for the conversion of `>=`, which is missing from the table and aborts; for every parsed program it is proved that the conversion succeeds iff there is no `>=`. Annotations are not part of the model's syntax tree."
  },
  {
   "property": "C57",
   "status": "partial",
   "theorems": [
    "C57_accepted_partial",
    "C57_run_partial"
   ],
   "note": "Proved from the source text on, for accepted programs whose functions are not generic, have no requires clause and no calls in the types of their parameters, end in `return` and need no implicit conversions. The other functions are refuted in C21, C27, C28 and C30."
  },
  {
   "property": "C58",
   "status": "partial",
   "theorems": [
    "C58_answers_partial",
    "C58_tokenizer_refuted",
    "C58_annotation_refuted",
    "C58_conversion_refuted",
    "C58_parameter_refuted",
    "C58_analysis_refuted",
    "C58_recursion_refuted",
    "C58_endless_refuted"
   ],
   "note": "Full statement refuted in every step: tokenizer, parser, conversion, name lookup, analysis (assertion, undefined behaviour, endless recursion). Proved: for source texts outside of the conditions that fail there, every step up to the analysis ends with a result or an error, in particular the walk over the annotations, whose arguments are always literals that it can read."
  },
  {
   "property": "C59",
   "status": "partial",
   "theorems": [
    "C59_meaning_partial",
    "C59_type_partial",
    "C59_constant_partial",
    "C59_assertion_partial",
    "C59_run_partial",
    "C59_value_refuted"
   ],
   "note": "Proved for accepted programs whose code needs no implicit conversions and that are simple in the sense of C57: types, constants, static assertions and the meaning of calls agree with a semantics of the source program without any recorded annotation, from the source text to the machine. Refuted without the first condition: an accepted text with a false static assertion, because the code that the analysis runs leaves out a conversion. Names are resolved in the semantics by the name lookup."
  },
  {
   "property": "C60",
   "status": "partial",
   "theorems": [
    "C60_accepted",
    "C60_rejected",
    "C60_total",
    "C60_accepted_if_partial",
    "C60_accepted_if_refuted",
    "C60_source",
    "C60_source_rejected"
   ],
   "note": "Proved that the walk checks every annotation in the order of the source, that trees and source texts are accepted only with valid annotations, and that the error is about the first invalid one. That valid annotations are accepted is proved for arguments without upper case digits, and refuted for others (@unroll(0xA) is rejected; see C13)."
  },
  {
   "property": "C61",
   "status": "partial",
   "theorems": [
    "C61_page_partial",
    "C61_numbers",
    "C61_superscript_refuted",
    "C61_stylesheet_refuted",
    "C61_instruction_refuted",
    "C61_injection_refuted",
    "C61_self_closing_refuted"
   ],
   "note": "Proved up to the length of white space for all parsed documents and successful conversions, except for: \\sup, which becomes <sub> (refuted); names of instructions with quotes, which can add attributes (refuted); code that is not regular (C62); stylesheets whose names need no quotes, which get a slash (refuted). Empty elements such as \\tt are written self-closing, which HTML does not know (refuted)."
  },
  {
   "property": "C62",
   "status": "partial",
   "theorems": [
    "C62_layout_partial",
    "C62_verbatim_partial",
    "C62_indentation_refuted",
    "C62_comment_refuted",
    "C62_comment_line_refuted",
    "C62_tab_refuted",
    "C62_carriage_return_refuted"
   ],
   "note": "Exact layout proved for all code without tabs, carriage returns and tokens of several lines, except for spaces at the ends of lines and white space before the first and after the last token. Refuted for comments of several lines (extra line feeds), tabs, carriage returns and the indentation of the first line."
  },
  {
   "property": "C63",
   "status": "partial",
   "theorems": [
    "C63_converts_partial",
    "C63_empty_refuted",
    "C63_arguments_refuted",
    "C63_items_refuted",
    "C63_code_refuted",
    "C63_instruction_refuted",
    "C63_extension_refuted",
    "C63_comment_refuted",
    "C63_language_refuted",
    "C63_annotation_refuted",
    "C63_carriage_return_refuted"
   ],
   "note": "Proved for all parsed documents without carriage returns whose nodes are workable (DocHtmlSpec.workable). Refuted for: \\br and \\hr (inverted assertion), arguments without a block, list items, notes, lists with arguments, \\c with a block, \\instruction without a block (undefined behaviour), numeric ext, comments within paragraphs, code blocks in languages other than BMS and plain text, incomplete annotations in code, carriage returns."
  },
  {
   "property": "C64",
   "status": "partial",
   "theorems": [
    "C64_source",
    "C64_instances",
    "C64_answers_partial",
    "C64_incomplete",
    "C64_return_type_refuted",
    "C64_let_refuted",
    "C64_uninitialized_refuted",
    "C64_if_refuted",
    "C64_break_refuted",
    "C64_global_refuted",
    "C64_call_refuted",
    "C64_all",
    "C64_all_instances",
    "C64_all_refuted"
   ],
   "note": "Proved for all bit-generic functions: what an instance is, that instances are shared, and that their declarations are new. That there is an instance is proved for functions of parsed programs without missing children that use only their own declarations, and refuted for others: types other than Uint, declarations without type or initialiser, if without else, break, return without value (undefined behaviour for all of them), global constants and other functions (abort)."
  },
  {
   "property": "C65",
   "status": "partial",
   "theorems": [
    "C65_deduction",
    "C65_answers_partial",
    "C65_parameter_refuted"
   ],
   "note": "Soundness proved for all functions of parsed programs. The answer (an instance, or the error exactly if an argument is no Uint) is proved under the conditions of C64; refuted for functions with parameters of other types (abort)."
  },
  {
   "property": "C66",
   "status": "partial",
   "theorems": [
    "C66_tokenizer_partial",
    "C66_tokenizer_place_partial",
    "C66_program_partial",
    "C66_document_place_partial",
    "C66_document_partial",
    "C66_document_defined",
    "C66_no_text_refuted",
    "C66_no_text",
    "C66_end_of_program_refuted",
    "C66_end_of_document_refuted",
    "C66_end_of_document",
    "C66_end_of_line_refuted",
    "C66_tabulator_refuted",
    "C66_colors_refuted"
   ],
   "note": "Proved for errors of the tokenizer, at tokens of programs, and at characters of documents, for sources without tabulators, carriage returns and line feeds inside of tokens and with fewer than 99999 lines; the reported places of document errors are proved for all of them. Refuted: unterminated strings, numbers without digits and errors at the end of a document abort; errors at the end of a program are shown at its beginning; errors at the end of a line show the next line; tabulators move the mark; some colours cannot be switched off."
  },
  {
   "property": "C67",
   "status": "proved",
   "theorems": [
    "C67_code",
    "C67_built_code",
    "C67_tokens",
    "C67_cut_off"
   ],
   "note": "Positions of tokens are those in the tokens (C17)."
  },
  {
   "property": "C68",
   "status": "partial",
   "theorems": [
    "C68_print_partial",
    "C68_print_only",
    "C68_sites_defined",
    "C68_sites_partial",
    "C68_error_partial",
    "C68_execution_partial",
    "C68_messages",
    "C68_causes",
    "C68_all_errors",
    "C68_return_type_refuted",
    "C68_return_type",
    "C68_execution_refuted",
    "C68_execution",
    "C68_reason_refuted",
    "C68_constraints_refuted",
    "C68_comparison_refuted"
   ],
   "note": "Proved: exactly which errors can be printed and what is then shown, and that the errors of all places in the code that build one can be printed, except for two places; for sources with fewer than 99999 lines. Refuted: a value of a type that cannot be returned aborts when it is reported; errors of the machine other than evaluation errors read an inactive member; a failing constant expression is reported without its reason; the constraints of a wrong annotation value are not shown; large numbers in failed comparisons are shown wrongly."
  },
  {
   "property": "C69",
   "status": "partial",
   "theorems": [
    "C69_false_comparison",
    "C69_cycle",
    "C69_assert_partial",
    "C69_stale_refuted",
    "C69_stale_printed_refuted"
   ],
   "note": "Proved for assertions of comparisons, in all states of the machine; as in C24, recorded constants and types are trusted. Refuted for other conditions: the comparison of an earlier assertion, which held, is reported, even if it belongs to the evaluation of another constant."
  },
  {
   "property": "C70",
   "status": "partial",
   "theorems": [
    "C70_constants",
    "C70_functions",
    "C70_instances",
    "C70_conservative",
    "C70_checked_refuted"
   ],
   "note": "Proved for all accepted programs, on the model of the whole analysis; programs without such calls are analysed as in Analyze.v (C70_conservative). Refuted: that instances are checked; bodies of instances are not looked at if the function is declared before its callers, and the order of declarations decides whether the program is accepted. In bodies of functions the widths of the instance are not compared with the arguments, only in constants and static assertions."
  },
  {
   "property": "C71",
   "status": "partial",
   "theorems": [
    "C71_result",
    "C71_result_move_assignment",
    "C71_result_move_body",
    "C71_result_any_refuted",
    "C71_status",
    "C71_variant",
    "C71_nothing_lost",
    "C71_packs"
   ],
   "note": "Proved for Result<void, E> and Variant; for Result<T, E> with the exception of assignment from an rvalue, which lacks its return statement: it is undefined whenever it is reached (C71_result_move_assignment), though its body is right. Operations of the contained types do not throw; a holder does not contain the other operand; variants of trivially copyable types only, which are copied bytewise, are not modelled."
  },
  {
   "property": "C72",
   "status": "partial",
   "theorems": [
    "C72_reads",
    "C72_languages",
    "C72_languages_refuted",
    "C72_enumerators",
    "C72_readable_names",
    "C72_analysis_speaks",
    "C72_failures_speak",
    "C72_verify",
    "C72_generate",
    "C72_not_implemented",
    "C72_html_console",
    "C72_html_file",
    "C72_html_success_partial",
    "C72_accepted",
    "C72_files",
    "C72_html_program_refuted",
    "C72_no_room_refuted",
    "C72_lost_refuted",
    "C72_color_refuted",
    "C72_help_refuted"
   ],
   "note": "Status 0 of verify and generate means what it should, and the shown code is the generated one; every failure prints a message; files are read whole; no other file is written. False: html of a program says that this is not supported and ends with 0 (C72_html_program_refuted); a page that does not fit on the disk is cut and the status is 0 (C72_no_room_refuted); a failed conversion has emptied the output file, even if that is the document itself (C72_lost_refuted); the enumerator typescript is not a known name (C72_languages_refuted); the message about a wrong suffix leaves the terminal red (C72_color_refuted); help offers dump_tokens for documents (C72_help_refuted). The places of errors of the analysis and the texts of exceptions are parameters."
  },
  {
   "property": "C73",
   "status": "partial",
   "theorems": [
    "C73_found_partial",
    "C73_found_refuted",
    "C73_type",
    "C73_statement",
    "C73_declaration",
    "C73_primary_partial",
    "C73_primary_refuted",
    "C73_argument",
    "C73_comparison",
    "C73_one_token",
    "C73_entered",
    "C73_all_refuted",
    "C73_assignment_refuted"
   ],
   "note": "Proved: something is always expected; the found token is never among the expected ones except inside of parentheses; the lists for types, statements, declarations (also after annotations) and comparisons are exactly the first tokens of the documented grammar; the named rule has been entered, as the token that marks it was read before (C73_entered). False: inside of parentheses the error of the inner expression is replaced but its place is kept, so that (1 2) reports an unexpected decimal literal and expects a decimal literal (C73_found_refuted); true and false are not listed for primary expressions (C73_primary_refuted); tokens with which the program could go on otherwise are not listed (C73_all_refuted, C73_assignment_refuted)."
  },
  {
   "property": "C74",
   "status": "partial",
   "theorems": [
    "C74_tree",
    "C74_every_node",
    "C74_text_nodes",
    "C74_lines",
    "C74_whole",
    "C74_cut",
    "C74_distinct",
    "C74_distinct_refuted",
    "C74_colors_refuted",
    "C74_dump"
   ],
   "note": "Printing the tree of a parsed document never fails an assertion and gives exactly the lines of a walk over the tree, each of them one line, with every node; texts up to the limit are shown whole, longer ones with at most one column too much; the command dump_ast shows this. False: colors are printed even if they are switched off (C74_colors_refuted), and then a line feed and a backslash with an n look the same (C74_distinct_refuted; with colors they are distinct)."
  },
  {
   "property": "C75",
   "status": "partial",
   "theorems": [
    "C75_lines",
    "C75_listing_partial",
    "C75_listing_bits",
    "C75_types_refuted",
    "C75_numbers_refuted"
   ],
   "note": "One line for each instruction (C75_lines), and equal listings mean equal instructions and operands, for programs of any length, up to the types of pushed numbers (C75_listing_partial). False as stated: types of pushed numbers are not printed, so that programs with different results look alike (C75_types_refuted), and numbers of more than 64 bits can look like others (C75_numbers_refuted, see C54). Pointers are assumed to be printed as distinct words; names hold no line feed."
  },
  {
   "property": "C76",
   "status": "partial",
   "theorems": [
    "C76_success",
    "C76_introspection",
    "C76_tokenize_error",
    "C76_parse_error_partial",
    "C76_analysis_error",
    "C76_one_kind",
    "C76_line_refuted",
    "C76_bare_code_refuted",
    "C76_execution_refuted"
   ],
   "note": "Exact conditions for all kinds of tests (C76_success, C76_introspection, C76_tokenize_error, C76_parse_error_partial, C76_analysis_error), which exclude each other (C76_one_kind). False as stated in three cases: an error at the end of a program has no token, so that a test that expects line 1 passes wherever the program ends (C76_line_refuted); a test that expects evaluation_error without its kind fails an assertion when such an error comes (C76_bare_code_refuted); and no test can expect an error of an execution, as the kind of the error was lost (C76_execution_refuted, see C68). The places of errors of the analysis are an argument. RepoTests.v runs the 81 tests of src/test/main.cpp in the model, and all of them pass, but for the expected lines of errors of the analysis, which are left out."
  },
  {
   "property": "C77",
   "status": "partial",
   "theorems": [
    "C77_lines_partial",
    "C77_undefined",
    "C77_annotation_refuted",
    "C77_told",
    "C77_operators",
    "C77_types",
    "C77_alike",
    "C77_names_refuted",
    "C77_argument_refuted",
    "C77_dump"
   ],
   "note": "C77_lines_partial gives the lines and numbers, C77_told says that what is shown can be read back if the words are on one line and the indentation is not zero, C77_operators and C77_types say that operators and types can be told by their words, and C77_dump says that the tool shows it, and C77_alike says that the printed trees of parsed programs are the same exactly if the programs are the same but for the names of functions, constants, variables and annotations and the values of arguments with keys. False as stated: an annotation with two arguments makes the printer read beyond the end of child_names, and exactly such annotations do (C77_undefined, C77_annotation_refuted); the names of functions, constants, variables and annotations are not shown (C77_names_refuted); the argument of an annotation is called a type, and a list of parameters is placed at its last one (C77_argument_refuted). Nodes are a tree with handles, not a vector."
  }
 ]
}