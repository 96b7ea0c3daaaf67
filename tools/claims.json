{
 "C01": [
  "proved",
  "All widths 1..127 (every width the Concrete_Type constructor admits), all in-range operands."
 ],
 "C02": [
  "partial",
  "Proved for all Uint operands and all Int operands except (-2^127, -1), which is undefined behaviour (refutation theorem); zero divisor proved for all operand types."
 ],
 "C03": [
  "partial",
  "Shift values proved for amounts below 128; amounts >= 128 are undefined behaviour and shift_too_much is never reported (both refuted)."
 ],
 "C04": [
  "partial",
  "False as stated (refuted: Bool == aborts, signed overflow). Proved: exact characterisation of every operand combination that aborts or is undefined, and definedness for all others."
 ],
 "C05": [
  "proved",
  "Unary, binary and if-expression type checks against evaluation, both directions."
 ],
 "C06": [
  "proved",
  "Unary, binary, conversion, if-expression and builtin."
 ],
 "C07": [
  "proved",
  "Exact success condition, error kinds, identity, transitivity, truncation, can_represent."
 ],
 "C08": [
  "proved",
  "Meaning of all six comparisons, trichotomy, transitivity, mixed operands."
 ],
 "C09": [
  "partial",
  "Known-result and error clauses proved for all operators; unknown-result clause proved where concrete evaluation is defined; false as stated (refuted) because comparing Bools aborts and dividing an unknown Uint by a constant aborts; exact abort condition proved."
 ],
 "C10": [
  "proved",
  "Concrete and possibly-unknown argument lists."
 ],
 "C11": [
  "proved",
  "Kleene connectives as exact images over Booleans, plus laws; also equals/not_equals."
 ],
 "C12": [
  "partial",
  "False as stated (overflow in bases 8/10/16 accepted, literals >= 2^127 become negative: refuted). Proved: exact for every value that fits, right modulo 2^128 whenever accepted, exact and overflow-safe in base 2."
 ],
 "C13": [
  "partial",
  "Recogniser fully characterised. Value clause proved without upper-case hexadecimal digits, refuted with them."
 ],
 "C14": [
  "partial",
  "Line and block comments proved in full; string literals end at the first unescaped quote, but the same-line clause is refuted."
 ],
 "C15": [
  "proved",
  "For every source on which tokenization succeeds."
 ],
 "C16": [
  "partial",
  "Token types obey maximal munch for all sources; token text equals the spelling except for ! and && whose tokens are too long (refuted). Identifiers do not begin with digits."
 ],
 "C17": [
  "partial",
  "Exact without tabs, carriage returns and newlines inside string/!/&& tokens; refuted otherwise."
 ],
 "C18": [
  "partial",
  "Termination proved; totality proved unless !/&& is within the last characters or the text ends in a slash; both exceptions refuted."
 ],
 "C19": [
  "proved",
  "Every operation history from the empty map, and from any data."
 ],
 "C20": [
  "partial",
  "Exact characterisation of advance, error and crash for every instruction and every well-formed machine; jumps to before the program start are carried out and then throw (refuted), so totality is false."
 ],
 "C21": [
  "partial",
  "Proved end to end for every accepted program whose functions end in return and need no implicit conversion: runs end only with the return, an operation error or an uninitialised variable. Refuted as stated for accepted programs (uninitialised variables, functions without return)."
 ],
 "C22": [
  "partial",
  "Holds for unconditional jumps and calls; refuted for conditional jumps, returns and tail recursion."
 ],
 "C23": [
  "partial",
  "No symbolic jumps; targets within the function or one past its end (strictly inside refuted; proved for functions ending in return and for Void functions)."
 ],
 "C24": [
  "partial",
  "Every expression and machine, against the evaluator that trusts recorded constants and omits branch conversions; for accepted direct programs that evaluator is proved equal to the faithful one."
 ],
 "C25": [
  "partial",
  "Every statement, loop count and machine, including divergence, against the same evaluator; for accepted direct programs against the faithful one."
 ],
 "C26": [
  "partial",
  "Calls from every machine, runs from function entries, and runs of every accepted direct program against the faithful evaluator; programs laid out callee-first without recursion."
 ],
 "C27": [
  "partial",
  "Proved for the source semantics of every accepted program; refuted for generated code (let and assignment do not convert), see C27_variable_refuted."
 ],
 "C28": [
  "partial",
  "Proved for accepted programs whose functions end in a return statement; refuted otherwise: a function may lack a return statement and runs into the code that follows."
 ],
 "C29": [
  "partial",
  "Every expression of every accepted program: a recorded value is what evaluation yields and what generated code pushes. Refuted for constants accepted without a value."
 ],
 "C30": [
  "partial",
  "Every call and expression of every accepted program, in the source semantics with conversions; refuted for generated code, where if-expressions, let and assignment do not convert."
 ],
 "C31": [
  "partial",
  "Lookup succeeds exactly on the lexically scoped programs without shadowing, with the unique resolution; rejects only others. Refuted in two details: a declaration is visible in its own initialiser, and an undefined call in a parameter width aborts."
 ],
 "C34": [
  "proved",
  "Any tree of appends, attempts, parenthesised scopes and failed assertions: an uncommitted or abandoned attempt restores text and spans exactly, a committed one keeps what its body appended."
 ],
 "C35": [
  "partial",
  "For every history of appends and attempts. False for a direct call of the public resize with a length the string never had (refuted); nothing in the code base makes such a call."
 ],
 "C36": [
  "partial",
  "No angle bracket gets through, for every text, style and writer state. Distinct outputs are proved for texts without '&'; refuted with '&', which is not escaped."
 ],
 "C37": [
  "partial",
  "Proved for all attribute lists whose values hold no double quote, tab, line feed, form feed or carriage return; refuted for a double quote, a tab, and for values without quotes before '/>'."
 ],
 "C38": [
  "partial",
  "For all accepted histories with sound arguments the markup read from the text is that of the calls, the depth is the number of open elements, and matched calls nest. Refuted: is_done is true initially, without a preamble, and inside a tag; names are not compared."
 ],
 "C39": [
  "partial",
  "Proved for tame documents (no empty block, no directive name sorting behind \"ul\", comments only after white space, no comment opener at the very end); refuted for each of the other kinds, including one on which the parser does not terminate."
 ],
 "C40": [
  "partial",
  "Exact characterisation of raw blocks by balanced content, also in whole documents; the empty block fails an assertion (refuted)."
 ],
 "C42": [
  "partial",
  "Known names are found and only they are; unknown names are rejected unless they sort behind \"ul\", for which the entry past the end of the table is read (refuted)."
 ],
 "C43": [
  "partial",
  "Every binary operator token except >= (refuted), all unary ones."
 ],
 "C44": [
  "partial",
  "All fixed spellings except ! and && (refuted)."
 ],
 "C45": [
  "proved",
  "All pairs and triples of expression kinds."
 ],
 "C46": [
  "partial",
  "Proved for all trees with sound arguments in which elements formatted as blocks have no attributes; refuted for block-formatted elements with attributes (always an assertion failure) and for names beginning with a dash."
 ],
 "C47": [
  "partial",
  "Proved for comments that do not begin with > or -> and do not hold --!>; refuted for those."
 ],
 "C48": [
  "partial",
  "Proved for all pass-through directives but superscript, which is written as a subscript (refuted)."
 ],
 "C49": [
  "partial",
  "Proved for all parsed documents, except that children of a list may overlap: a paragraph before a heading covers the heading (refuted). Names and values of arguments are names, or numbers in the range of 64 bits."
 ],
 "C50": [
  "proved",
  "Proved for all parsed documents."
 ],
 "C41": [
  "partial",
  "Binding, rejection and totality are proved for all argument lists the parser can produce; the resolved annotation keeps values in argument order, so it does not present them under their parameters (refuted)."
 ],
 "C51": [
  "partial",
  "Full statement refuted twice (f(a b) without a comma and string literals as expressions are accepted). Proved for all tokens: whatever is accepted is derived, with its tree, by the grammar relaxed in exactly these two points, with comparisons chosen by the parser's look-ahead."
 ],
 "C52": [
  "partial",
  "Full statement refuted three times (f(a, b == c), a if b else c == d, annotations between else and if). Proved for all programs of the grammar whose comparisons are the ones that the look-ahead finds; in particular for all programs without comparison operators. Corollary: that grammar is unambiguous."
 ],
 "C53": [
  "partial",
  "Full statement refuted: an error inside of an annotation's argument list aborts. Proved for all source texts: otherwise the parser ends with a program or an error at an end of the tokens; it aborts only if an annotation name is followed by a parenthesis that starts no argument list. The parser's call-stack depth is not modelled."
 ],
 "C54": [
  "partial",
  "Full statement refuted: numbers of 2^64 and above are printed in parts of 19 digits without padding, so 10^20 prints as 100 and printing is not injective. Proved for all 128-bit integers: the output is right iff the lower parts have no leading zero, in particular below 2^64."
 ],
 "C32": [
  "partial",
  "False as stated, four refutations: a converted binary expression is printed without parentheses (`a + 10 as Int`), `!` is tokenized three characters long so `!abc` comes back as `!c`, and the parser's look-ahead for comparisons rejects `f(a, a == 10)` and `(a + 10) & (a == 10)`. Proved for all other expressions of any depth and all options that indent with whitespace: the printed tokens belong to the documented grammar with the same tree; the parser returns this tree if there are no comparisons, or a comparison at the outside, or an if-expression of such parts, and whenever the parser's look-ahead finds a comparison operator exactly where there is a comparison."
 ],
 "C55": [
  "partial",
  "Programs of any size; annotations are not part of the model's syntax tree. False as stated: `else` is not printed before a block, nor the semicolon after a call, nor a requires clause, and the look-ahead for comparisons reaches from a declared type's width into the initialiser. Proved for programs without these: the printed program belongs to the documented grammar with the same tree, and the parser returns this tree if all expressions are recognised (see C32) and no signature contains a comparison."
 ],
 "C33": [
  "partial",
  "False as stated. The expression grammar of C (max-munch tokens, precedence levels, casts, calls, increments) is given as a separate specification and proved unambiguous. Proved for all expressions without conditional expressions (or one in the else branch of another): the text has exactly one reading, and it is the tree of the BMS expression exactly if always_parenthesize is set or no right operand has an operator of the same level; signs have to be kept apart. Proved for all expressions: parentheses match exactly without conditional expressions, or with a top-level one that contains exactly one other. Refuted: a - (a - a), -(-a), negative inlined constants, every single conditional expression, constant names in C23 mode, names that are C keywords. Not covered: literals whose digits come out wrong (C54)."
 ],
 "C56": [
  "partial",
  "Structure and identities proved for all programs. Full statement refuted for the conversion of `>=`, which is missing from the table and aborts; for every parsed program it is proved that the conversion succeeds iff there is no `>=`. Annotations are not part of the model's syntax tree."
 ],
 "C57": [
  "partial",
  "Proved from the source text on, for accepted programs whose functions are not generic, have no requires clause and no calls in the types of their parameters, end in `return` and need no implicit conversions. The other functions are refuted in C21, C27, C28 and C30."
 ],
 "C58": [
  "partial",
  "Full statement refuted in every step: tokenizer, parser, conversion, name lookup, analysis (assertion, undefined behaviour, endless recursion). Proved: for source texts outside of the conditions that fail there, every step up to the analysis ends with a result or an error, in particular the walk over the annotations, whose arguments are always literals that it can read."
 ],
 "C59": [
  "partial",
  "Proved for accepted programs whose code needs no implicit conversions and that are simple in the sense of C57: types, constants, static assertions and the meaning of calls agree with a semantics of the source program without any recorded annotation, from the source text to the machine. Refuted without the first condition: an accepted text with a false static assertion, because the code that the analysis runs leaves out a conversion. Names are resolved in the semantics by the name lookup."
 ],
 "C60": [
  "partial",
  "Proved that the walk checks every annotation in the order of the source, that trees and source texts are accepted only with valid annotations, and that the error is about the first invalid one. That valid annotations are accepted is proved for arguments without upper case digits, and refuted for others (@unroll(0xA) is rejected; see C13)."
 ],
 "C61": [
  "partial",
  "Proved up to the length of white space for all parsed documents and successful conversions, except for: \\sup, which becomes <sub> (refuted); names of instructions with quotes, which can add attributes (refuted); code that is not regular (C62); stylesheets whose names need no quotes, which get a slash (refuted). Empty elements such as \\tt are written self-closing, which HTML does not know (refuted)."
 ],
 "C62": [
  "partial",
  "Exact layout proved for all code without tabs, carriage returns and tokens of several lines, except for spaces at the ends of lines and white space before the first and after the last token. Refuted for comments of several lines (extra line feeds), tabs, carriage returns and the indentation of the first line."
 ],
 "C63": [
  "partial",
  "Proved for all parsed documents without carriage returns whose nodes are workable (DocHtmlSpec.workable). Refuted for: \\br and \\hr (inverted assertion), arguments without a block, list items, notes, lists with arguments, \\c with a block, \\instruction without a block (undefined behaviour), numeric ext, comments within paragraphs, code blocks in languages other than BMS and plain text, incomplete annotations in code, carriage returns."
 ],
 "C64": [
  "partial",
  "Proved for all bit-generic functions: what an instance is, that instances are shared, and that their declarations are new. That there is an instance is proved for functions of parsed programs without missing children that use only their own declarations, and refuted for others: types other than Uint, declarations without type or initialiser, if without else, break, return without value (undefined behaviour for all of them), global constants and other functions (abort)."
 ],
 "C65": [
  "partial",
  "Soundness proved for all functions of parsed programs. The answer (an instance, or the error exactly if an argument is no Uint) is proved under the conditions of C64; refuted for functions with parameters of other types (abort)."
 ],
 "C66": [
  "partial",
  "Proved for errors of the tokenizer, at tokens of programs, and at characters of documents, for sources without tabulators, carriage returns and line feeds inside of tokens and with fewer than 99999 lines; the reported places of document errors are proved for all of them. Refuted: unterminated strings, numbers without digits and errors at the end of a document abort; errors at the end of a program are shown at its beginning; errors at the end of a line show the next line; tabulators move the mark; some colours cannot be switched off."
 ],
 "C67": [
  "proved",
  "Positions of tokens are those in the tokens (C17)."
 ],
 "C68": [
  "partial",
  "Proved: exactly which errors can be printed and what is then shown, and that the errors of all places in the code that build one can be printed, except for two places; for sources with fewer than 99999 lines. Refuted: a value of a type that cannot be returned aborts when it is reported; errors of the machine other than evaluation errors read an inactive member; a failing constant expression is reported without its reason; the constraints of a wrong annotation value are not shown; large numbers in failed comparisons are shown wrongly."
 ],
 "C69": [
  "partial",
  "Proved for assertions of comparisons, in all states of the machine; as in C24, recorded constants and types are trusted. Refuted for other conditions: the comparison of an earlier assertion, which held, is reported, even if it belongs to the evaluation of another constant."
 ],
 "C70": [
  "partial",
  "Proved for all accepted programs, on the model of the whole analysis; programs without such calls are analysed as in Analyze.v (C70_conservative). Refuted: that instances are checked; bodies of instances are not looked at if the function is declared before its callers, and the order of declarations decides whether the program is accepted. In bodies of functions the widths of the instance are not compared with the arguments, only in constants and static assertions."
 ],
 "C71": [
  "partial",
  "Proved for Result<void, E> and Variant; for Result<T, E> with the exception of assignment from an rvalue, which lacks its return statement: it is undefined whenever it is reached (C71_result_move_assignment), though its body is right. Operations of the contained types do not throw; a holder does not contain the other operand; variants of trivially copyable types only, which are copied bytewise, are not modelled."
 ],
 "C72": [
  "partial",
  "Status 0 of verify and generate means what it should, and the shown code is the generated one; every failure prints a message; files are read whole; no other file is written. False: html of a program says that this is not supported and ends with 0 (C72_html_program_refuted); a page that does not fit on the disk is cut and the status is 0 (C72_no_room_refuted); a failed conversion has emptied the output file, even if that is the document itself (C72_lost_refuted); the enumerator typescript is not a known name (C72_languages_refuted); the message about a wrong suffix leaves the terminal red (C72_color_refuted); help offers dump_tokens for documents (C72_help_refuted). The places of errors of the analysis and the texts of exceptions are parameters."
 ],
 "C73": [
  "partial",
  "Proved: something is always expected; the found token is never among the expected ones except inside of parentheses; the lists for types, statements, declarations (also after annotations) and comparisons are exactly the first tokens of the documented grammar; the named rule has been entered, as the token that marks it was read before (C73_entered). False: inside of parentheses the error of the inner expression is replaced but its place is kept, so that (1 2) reports an unexpected decimal literal and expects a decimal literal (C73_found_refuted); true and false are not listed for primary expressions (C73_primary_refuted); tokens with which the program could go on otherwise are not listed (C73_all_refuted, C73_assignment_refuted)."
 ],
 "C74": [
  "partial",
  "Printing the tree of a parsed document never fails an assertion and gives exactly the lines of a walk over the tree, each of them one line, with every node; texts up to the limit are shown whole, longer ones with at most one column too much; the command dump_ast shows this. False: colors are printed even if they are switched off (C74_colors_refuted), and then a line feed and a backslash with an n look the same (C74_distinct_refuted; with colors they are distinct)."
 ],
 "C75": [
  "partial",
  "One line for each instruction (C75_lines), and equal listings mean equal instructions and operands, for programs of any length, up to the types of pushed numbers (C75_listing_partial). False as stated: types of pushed numbers are not printed, so that programs with different results look alike (C75_types_refuted), and numbers of more than 64 bits can look like others (C75_numbers_refuted, see C54). Pointers are assumed to be printed as distinct words; names hold no line feed."
 ],
 "C76": [
  "partial",
  "Exact conditions for all kinds of tests (C76_success, C76_introspection, C76_tokenize_error, C76_parse_error_partial, C76_analysis_error), which exclude each other (C76_one_kind). False as stated in three cases: an error at the end of a program has no token, so that a test that expects line 1 passes wherever the program ends (C76_line_refuted); a test that expects evaluation_error without its kind fails an assertion when such an error comes (C76_bare_code_refuted); and no test can expect an error of an execution, as the kind of the error was lost (C76_execution_refuted, see C68). The places of errors of the analysis are an argument. RepoTests.v runs the 81 tests of src/test/main.cpp in the model, and all of them pass, but for the expected lines of errors of the analysis, which are left out."
 ],
 "C77": [
  "partial",
  "C77_lines_partial gives the lines and numbers, C77_told says that what is shown can be read back if the words are on one line and the indentation is not zero, C77_operators and C77_types say that operators and types can be told by their words, and C77_dump says that the tool shows it, and C77_alike says that the printed trees of parsed programs are the same exactly if the programs are the same but for the names of functions, constants, variables and annotations and the values of arguments with keys. False as stated: an annotation with two arguments makes the printer read beyond the end of child_names, and exactly such annotations do (C77_undefined, C77_annotation_refuted); the names of functions, constants, variables and annotations are not shown (C77_names_refuted); the argument of an annotation is called a type, and a list of parameters is placed at its last one (C77_argument_refuted). Nodes are a tree with handles, not a vector."
 ]
}