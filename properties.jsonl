{"id": "C01", "title": "Uint arithmetic is arithmetic modulo 2^N", "statement": "For two Uint(N) values, evaluating +, -, *, &, |, ^ yields a Uint(N) value equal to the mathematical result reduced modulo 2^N (bitwise result for &,|,^), and unary - and ~ likewise; the result is always in [0, 2^N).", "quantifier": "every width N the type constructor admits, every pair of in-range operand values", "why_tests_cant": "2^(2N) operand pairs per width; wrap-around, masking and 128-bit intermediate truncation interact only at extreme values", "anchors": ["src/bms/evaluation/operations.cpp:evaluate_binary_operator", "src/bms/evaluation/operations.cpp:evaluate_unary_operator", "src/bms/concrete_value.hpp:transform_uint"]}
{"id": "C02", "title": "Integer division and remainder", "statement": "Dividing integers of equal type by a non-zero value gives the truncating quotient q and remainder r with a = q*b + r, |r| < |b|, r has the sign of a; a zero divisor always gives division_by_zero and never a value, and for Uint operands the results stay in range.", "quantifier": "all Int and Uint(N) operand pairs", "why_tests_cant": "infinite operand space; INT_MIN / -1 is a single failing point in 2^256", "anchors": ["src/bms/evaluation/operations.cpp:evaluate_binary_operator"]}
{"id": "C03", "title": "Shift semantics", "statement": "x << y on Uint(N) is x*2^y mod 2^N and x >> y is floor(x/2^y) for every shift amount; shifting by at least the operand width is reported as the error shift_too_much.", "quantifier": "all widths, all values, all shift amounts", "why_tests_cant": "shift amounts above 127 are C++ undefined behaviour and sanitizer-free tests cannot see them; the error contract ranges over all amounts", "anchors": ["src/bms/evaluation/operations.cpp:evaluate_binary_operator", "src/bms/evaluation/evaluation_error.hpp:shift_too_much"]}
{"id": "C04", "title": "Evaluation never leaves defined behaviour", "statement": "Evaluating any unary or binary operator on any well-formed operands either returns a value or an evaluation error code; it never fails an internal assertion and never executes undefined behaviour.", "quantifier": "all operators, all pairs of well-formed concrete values of all types", "why_tests_cant": "the bad points (Bool ==, INT_MIN negation, overflow) are isolated in a 2^256 space", "anchors": ["src/bms/evaluation/operations.cpp:evaluate_unary_operator", "src/bms/evaluation/operations.cpp:evaluate_binary_operator"]}
{"id": "C05", "title": "Type checking predicts evaluation", "statement": "If the type check of an operator succeeds with result type T then evaluation never reports type_error and any value returned has type exactly T; if the type check fails then evaluation reports type_error.", "quantifier": "all operators, operand types and operand values", "why_tests_cant": "needs agreement of two separately written case analyses on the full product of operators, types and values", "anchors": ["src/bms/evaluation/operations.cpp:check_binary_operator", "src/bms/evaluation/operations.cpp:check_unary_operator", "src/bms/evaluation/operations.cpp:evaluate_binary_operator"]}
{"id": "C06", "title": "Operators preserve well-formed values", "statement": "If operands are representable in their types then every value returned by an operator, conversion, if-expression or builtin is representable in its own type (Bool in {0,1}, Uint(N) in [0,2^N)).", "quantifier": "all operators and operands", "why_tests_cant": "an invariant over all inputs; single missed mask only shows for particular widths", "anchors": ["src/bms/evaluation/operations.cpp", "src/bms/concrete_value.hpp:convert_to"]}
{"id": "C07", "title": "Lossless conversion laws", "statement": "Converting a value to a type succeeds exactly when the value (as a number) is representable in the target and the types are convertible; the numeric value is unchanged; converting to the own type is the identity; conversion is transitive. Truncating conversion reduces modulo 2^N.", "quantifier": "all values and target types", "why_tests_cant": "universally quantified algebraic law over 128-bit integers", "anchors": ["src/bms/concrete_value.hpp:convert_to", "src/bms/concrete_type.hpp:is_convertible_to", "src/bms/concrete_type.hpp:can_represent"]}
{"id": "C08", "title": "Comparisons form a consistent total order", "statement": "On values of a common integer type, <, >, <=, >=, ==, != agree with the mathematical order of the values: exactly one of <, ==, > holds, <= is the negation of >, < is transitive, and mixed Int/Uint comparison equals the comparison after conversion.", "quantifier": "all operand pairs and triples", "why_tests_cant": "order laws quantify over triples of 128-bit values", "anchors": ["src/bms/evaluation/operations.cpp:evaluate_binary_operator"]}
{"id": "C09", "title": "Abstract evaluation is sound", "statement": "Evaluating an operator on partially unknown values over-approximates concrete evaluation: if it returns a known value, then every choice of the unknown operands evaluates to that value; if it returns an unknown value of type T, then every choice gives a value of type T or an evaluation error; if it returns an error, then every choice of the unknown operands gives an error.", "quantifier": "all operators, all partially known operand pairs, all concretisations", "why_tests_cant": "quantifies over all concretisations of unknown operands", "anchors": ["src/bms/evaluation/operations.cpp:evaluate_binary_operator(Value)", "src/bms/value.hpp"]}
{"id": "C10", "title": "assert() has exactly one outcome per condition", "statement": "The builtin assert applied to one Bool returns Void when the condition is true and assertion_fail otherwise; with any other argument list it is a type error; with an unknown Bool it is an unknown Void.", "quantifier": "all argument lists", "why_tests_cant": "argument lists of every length and type combination", "anchors": ["src/bms/evaluation/operations.cpp:unsafe_evaluate_builtin_function_impl", "src/bms/evaluation/operations.cpp:check_builtin_function_impl"]}
{"id": "C11", "title": "Tribool is Kleene's strong three-valued logic", "statement": "not/and/or on Tribool are the Kleene connectives: exactly the tightest results valid for every Boolean value that maybe could stand for; de Morgan, associativity, commutativity and absorption hold.", "quantifier": "all Tribool formulas", "why_tests_cant": "formula-level statement (arbitrary nesting and assignments)", "anchors": ["src/common/tribool.hpp"]}
{"id": "C12", "title": "Integer literals denote their positional value", "statement": "Parsing the digits of a literal in base 2, 8, 10 or 16 that is accepted returns exactly the positional value of the digit string; a value that does not fit is rejected rather than wrapped.", "quantifier": "all digit strings of every length and all four bases", "why_tests_cant": "overflow check is only wrong for particular long digit strings", "anchors": ["src/common/parse.cpp:parse_uinteger_digits", "src/common/parse.cpp:safe_mul", "src/common/parse.cpp:parse_integer_literal"]}
{"id": "C13", "title": "Literal recogniser takes the longest literal and every recognised literal has a value", "statement": "match_integer_literal reports a prefix of the input that consists of an optional base prefix and a maximal non-empty run of digits of that base, and a literal recognised by the tokenizer whose value fits is never rejected later by the value parser.", "quantifier": "all input strings", "why_tests_cant": "unbounded strings; disagreement only on upper-case hex digits", "anchors": ["src/common/parse.cpp:match_integer_literal", "src/common/parse.cpp:parse_integer_literal"]}
{"id": "C14", "title": "Comments and string literals are delimited correctly", "statement": "A line comment extends to just before the first newline, a block comment to the first */ after its opening, a string literal to the first unescaped quote on the same line; unterminated ones are reported as unterminated, and nothing else is ever matched.", "quantifier": "all source strings", "why_tests_cant": "unbounded strings and all positions of delimiters and escapes", "anchors": ["src/common/parse.cpp:match_line_comment", "src/common/parse.cpp:match_block_comment", "src/common/parse.cpp:match_string_literal"]}
{"id": "C15", "title": "Tokens tile the source", "statement": "On success the token list is ordered, tokens do not overlap, each lies inside the source, and the text between consecutive tokens, before the first and after the last consists only of white space and comments removed from no token.", "quantifier": "all source texts that tokenize successfully", "why_tests_cant": "invariant over unbounded token sequences", "anchors": ["src/bms/tokenization/tokenize.cpp", "src/bms/tokenization/token.hpp"]}
{"id": "C16", "title": "Maximal munch for operators, keywords and identifiers", "statement": "At every token position the longest operator spelling that is a prefix of the remaining input is chosen, and an identifier token is a maximal run of identifier characters which is a keyword token exactly if its whole text is a keyword.", "quantifier": "all source texts, all positions", "why_tests_cant": "quantifies over all suffixes of all inputs", "anchors": ["src/bms/tokenization/tokenize.cpp"]}
{"id": "C17", "title": "Source positions are exact", "statement": "The line, column and begin recorded for each token equal the number of newlines before the token, the distance from the last newline, and the offset of the token.", "quantifier": "all source texts and all tokens", "why_tests_cant": "accumulated state over unbounded input", "anchors": ["src/bms/tokenization/tokenize.cpp:advance_position_by", "src/common/source_position.hpp"]}
{"id": "C18", "title": "Tokenization is total", "statement": "Tokenizing any text returns tokens or a tokenizer error with a position inside the text; it never throws an internal assertion.", "quantifier": "all source texts", "why_tests_cant": "a crash depends on what follows the last character", "anchors": ["src/bms/tokenization/tokenize.cpp"]}
{"id": "C19", "title": "Variable environment refines a stack of maps", "statement": "For any sequence of emplace/assign/push_frame/pop_frame/find operations, the linear map stack behaves as a stack of finite maps: find and assign see only the newest frame, assign overwrites exactly one key, pop_frame removes exactly the newest frame and restores every older variable, and reports failure exactly on the bottom frame.", "quantifier": "all operation histories of any length", "why_tests_cant": "unbounded histories of interleaved operations", "anchors": ["src/bms/vm/linear_map_stack.hpp"]}
{"id": "C20", "title": "A VM step is deterministic, total and changes nothing else", "statement": "A cycle of the virtual machine is defined on every reachable state: it either advances to a unique next state that differs only in the parts named by the instruction (value stack top, one variable, program counter, frames), or reports the execution error documented for that instruction; the program text never changes.", "quantifier": "all programs and machine states", "why_tests_cant": "state space is infinite", "anchors": ["src/bms/vm/vm.cpp:cycle", "src/bms/vm/vm.hpp"]}
{"id": "C21", "title": "The VM never crashes on generated code", "statement": "Running generated code never pops an empty value stack, never loads an uninitialised variable, never executes a symbolic jump and never jumps outside the program.", "quantifier": "all analysed programs, all inputs, all run lengths", "why_tests_cant": "unbounded executions", "anchors": ["src/bms/vm/vm.cpp", "src/bms/vm/codegen.cpp"]}
{"id": "C22", "title": "infinite_loop is only reported for real infinite loops", "statement": "If the VM reports infinite_loop then continuing the program from that state would never terminate.", "quantifier": "all programs and states", "why_tests_cant": "refers to non-termination of all continuations", "anchors": ["src/bms/vm/vm.cpp"]}
{"id": "C23", "title": "Generated jumps are resolved and stay inside the function", "statement": "Code generated for a function contains no symbolic break/continue jump, and every jump emitted for it targets an instruction index within the code of that same function.", "quantifier": "all functions whose code generation succeeds, all nesting depths of loops, conditionals and short-circuit operators", "why_tests_cant": "unbounded nesting of control flow", "anchors": ["src/bms/vm/codegen.cpp"]}
{"id": "C24", "title": "Expression compilation is correct", "statement": "Executing the code generated for an expression from any machine state pushes exactly the value given by the source semantics of the expression (short-circuit &&/||, lazily evaluated if-expression branches, left-to-right operands), or stops with the execution error corresponding to the source-level evaluation error, and leaves variables, frames and lower stack entries unchanged.", "quantifier": "all expressions, all environments", "why_tests_cant": "structural induction over unbounded expressions", "anchors": ["src/bms/vm/codegen.cpp:Binary_Expression", "src/bms/vm/codegen.cpp:If_Expression", "src/bms/vm/vm.cpp"]}
{"id": "C25", "title": "Statement and loop compilation is correct", "statement": "Executing the code generated for a statement, block, loop, break, continue or return simulates the source semantics for every terminating execution: same final variables, same returned value or same error; diverging programs diverge.", "quantifier": "all statements, all loop iteration counts, all inputs", "why_tests_cant": "unbounded iteration and nesting", "anchors": ["src/bms/vm/codegen.cpp:While_Statement", "src/bms/vm/codegen.cpp:If_Statement", "src/bms/vm/codegen.cpp:Control_Statement"]}
{"id": "C26", "title": "Function call compilation is correct", "statement": "Calling a function through generated code binds each parameter to the corresponding argument, runs the body with its own variables, returns its value to the caller, and restores the caller's variables.", "quantifier": "all call graphs including recursion, all argument lists", "why_tests_cant": "unbounded call depth", "anchors": ["src/bms/vm/codegen.cpp:Function", "src/bms/vm/codegen.cpp:Function_Call_Expression"]}
{"id": "C27", "title": "Every declared variable holds a value of its declared type", "statement": "At run time a variable declared with type T only ever holds values of type T: initialising or assigning an Int expression to a Uint(N) variable converts it (with a range error if it does not fit).", "quantifier": "all programs accepted by analysis, all executions", "why_tests_cant": "type invariant over all executions", "anchors": ["src/bms/vm/codegen.cpp:Let", "src/bms/vm/codegen.cpp:Assignment", "src/bms/analyze.cpp:Let"]}
{"id": "C28", "title": "Non-void functions return a value", "statement": "Every execution of a function with non-Void return type that ends without error ends in a return statement of that function, never by running past the end of its code.", "quantifier": "all accepted functions, all executions", "why_tests_cant": "all paths through unbounded control flow", "anchors": ["src/bms/vm/codegen.cpp:Function", "src/bms/analyze.cpp:Function"]}
{"id": "C29", "title": "Constant folding agrees with execution", "statement": "If analysis records a known constant for an expression then executing the expression's generated code in any environment consistent with the constants yields that same value.", "quantifier": "all expressions and environments", "why_tests_cant": "all inputs on which the folded expression would be run", "anchors": ["src/bms/analyze.cpp", "src/bms/evaluation/operations.cpp"]}
{"id": "C30", "title": "Static typing is sound", "statement": "If analysis assigns type T to an expression then its evaluation yields a value of type T or an evaluation error.", "quantifier": "all expressions and environments whose variables hold values of their static types", "why_tests_cant": "all programs and inputs", "anchors": ["src/bms/analyze.cpp"]}
{"id": "C31", "title": "Name lookup is lexical scoping without shadowing", "statement": "Every identifier use is resolved to the unique declaration visible at that point: the innermost enclosing scope's earlier declaration, parameters in function bodies, globals anywhere; redeclaring a visible name is rejected; unresolvable names are rejected.", "quantifier": "all programs, all nesting depths", "why_tests_cant": "unbounded nesting and declaration orders", "anchors": ["src/bms/analyze_name_lookup.cpp", "src/bms/symbol_table.hpp"]}
{"id": "C32", "title": "Printing then parsing an expression returns the same expression", "statement": "The BMS code printed for an expression tree parses back to a tree with the same structure: the generator inserts enough parentheses for the language's strict precedence rules.", "quantifier": "all expression trees of any depth", "why_tests_cant": "structural induction over all trees", "anchors": ["src/bmd/codegen/codegen_bms.cpp", "src/bms/parsing/parse.cpp", "src/bms/expression_type.hpp"]}
{"id": "C33", "title": "C output preserves expression structure", "statement": "The C expression printed for a BMS expression groups operands the same way as the BMS tree under C's precedence and associativity rules, with balanced parentheses.", "quantifier": "all expression trees", "why_tests_cant": "needs every pair of operators at every nesting position", "anchors": ["src/bmd/codegen/codegen_c_cpp.cpp", "src/bmd/codegen/generator_base.hpp"]}
{"id": "C34", "title": "Failed generation leaves no partial output", "statement": "A generator attempt that is not committed restores the output string (text and highlighting spans) to exactly its state at the start of the attempt; committed attempts only append.", "quantifier": "all nested sequences of appends and attempts", "why_tests_cant": "unbounded nesting of attempts with early exits", "anchors": ["src/bmd/codegen/generator_base.hpp:Scoped_Attempt", "src/bmd/codegen/code_string.hpp"]}
{"id": "C35", "title": "Highlight spans are ordered, disjoint and inside the text", "statement": "After any sequence of appends and truncations, the spans of a code string are non-empty, in increasing order, non-overlapping and within the text, and concatenating spans and gaps gives back the text.", "quantifier": "all operation sequences", "why_tests_cant": "unbounded histories", "anchors": ["src/bmd/codegen/code_string.hpp"]}
{"id": "C36", "title": "HTML text is escaped", "statement": "Text written through the HTML writer cannot introduce markup: the output for a text contains no '<' or '>' from the input, and distinct texts give distinct outputs (unescaping recovers the text).", "quantifier": "all texts", "why_tests_cant": "unbounded strings", "anchors": ["src/bmd/html/html_writer.cpp:write_escaped_text", "src/bmd/html/html_writer.cpp:write_inner_text"]}
{"id": "C37", "title": "HTML attributes cannot be broken out of", "statement": "For every attribute value the written attribute parses back as exactly one attribute with that value.", "quantifier": "all attribute values", "why_tests_cant": "unbounded strings; only quotes and special white space fail", "anchors": ["src/bmd/html/html_writer.cpp:write_attribute", "src/bmd/html/html_writer.hpp:requires_quotes_in_attribute"]}
{"id": "C38", "title": "HTML tags balance", "statement": "Any sequence of writer calls that the writer accepts without assertion failure and that ends with is_done reporting completion produces properly nested tags, and is_done has no false positives.", "quantifier": "all call histories", "why_tests_cant": "unbounded histories", "anchors": ["src/bmd/html/html_writer.cpp", "src/bmd/html/html_writer.hpp:is_done"]}
{"id": "C39", "title": "Document parsing is total", "statement": "Parsing any BMD document returns a document or a parse error; it terminates and never throws an internal assertion.", "quantifier": "all documents", "why_tests_cant": "termination and absence of crashes over all inputs", "anchors": ["src/bmd/parsing/parse.cpp"]}
{"id": "C40", "title": "Raw blocks end at the matching brace", "statement": "The content of a raw directive block is exactly the text up to the closing brace that matches its opening brace, counting nested braces.", "quantifier": "all documents", "why_tests_cant": "unbounded nesting", "anchors": ["src/bmd/parsing/parse.cpp:match_raw_content"]}
{"id": "C41", "title": "Annotation arguments bind to parameters correctly", "statement": "Positional arguments bind to the first parameters not yet given, named arguments to the parameter of that name, duplicates, unknown names, superfluous and missing required arguments are rejected, and the resolved annotation presents each argument under its own parameter.", "quantifier": "all argument lists", "why_tests_cant": "all orders and mixes of named and positional arguments", "anchors": ["src/bms/analyze_annotations.cpp"]}
{"id": "C42", "title": "Directive lookup finds exactly the known directives", "statement": "Looking up a directive name returns its type for every known name and nothing for every other string, without reading outside the table.", "quantifier": "all strings", "why_tests_cant": "all strings outside a finite table", "anchors": ["src/bmd/enums.cpp:directive_type_by_id"]}
{"id": "C43", "title": "Every operator the grammar accepts has a meaning", "statement": "Each binary operator token accepted by the parser in an expression is translated to the corresponding operation, so analysing a syntactically valid comparison never aborts.", "quantifier": "all binary operator tokens", "why_tests_cant": "a table-completeness property relating three separately written tables", "anchors": ["src/bms/ast.cpp:binary_expression_type_of_token", "src/bms/parsing/parse.cpp", "src/bms/util.cpp"]}
{"id": "C44", "title": "Operator spellings and lengths agree", "statement": "For every token type with a fixed spelling, the recorded length equals the length of its spelling, and re-tokenizing the spelling gives back the token type.", "quantifier": "all token types and any text following them", "why_tests_cant": "table agreement across three tables and all following contexts", "anchors": ["src/bms/util.cpp:token_type_length", "src/bms/util.cpp:token_type_code_name"]}
{"id": "C45", "title": "Operator precedence is a strict partial order", "statement": "The precedence comparison is irreflexive, antisymmetric and transitive, so that needs-parentheses decisions are consistent.", "quantifier": "all pairs and triples of expression kinds", "why_tests_cant": "relational laws used by the printer for arbitrary nesting", "anchors": ["src/bms/expression_type.hpp:compare_precedence"]}
{"id": "C46", "title": "Every HTML document can be written", "statement": "Writing any document tree through the interface of the HTML writer as its documentation asks for (preamble first, matching tags, attributes ended) fails no assertion, and the tokenizer of the HTML standard reads the written text as exactly the tags, attributes and comments of the tree, properly nested.", "quantifier": "all document trees, all indentation widths", "why_tests_cant": "unbounded trees", "anchors": ["src/bmd/html/html_writer.cpp", "src/bmd/html/html_writer.hpp:begin_tag_with_attributes"]}
{"id": "C47", "title": "HTML comments cannot be broken out of", "statement": "For every comment the writer accepts, the written comment is read back as exactly one comment with that text.", "quantifier": "all comment texts", "why_tests_cant": "unbounded strings; only a few endings fail", "anchors": ["src/bmd/html/html_writer.cpp:write_comment_tag"]}
{"id": "C48", "title": "Pass-through directives become the element of their own name", "statement": "Every formatting directive that is passed through to HTML is written as the element of the same name, and distinct directives are written as distinct elements.", "quantifier": "all directive types", "why_tests_cant": "a copy-and-paste slip in one row of a table only shows for that one directive", "anchors": ["src/bmd/directive_type.hpp:directive_type_tag", "src/bmd/enums.cpp"]}
{"id": "C49", "title": "The nodes of a parsed document are where their spans say", "statement": "In every parsed BMD document, the span of a text node is exactly its text, the span of a directive is its backslash, name, arguments and block, argument values are the names and numbers written at their spans, every node lies inside of its parent, all texts and directives of a list are in source order, and the children of a list do not overlap.", "quantifier": "all documents", "why_tests_cant": "unbounded documents; wrong offsets only show for particular nestings of blanks, comments and blocks", "anchors": ["src/bmd/parsing/parse.cpp"]}
{"id": "C50", "title": "Parsed documents have the documented structure", "statement": "In every parsed BMD document, each text and directive stands only where its environment allows it, its name is that of its type, its arguments have distinct names, and its block holds what the content type of the directive allows.", "quantifier": "all documents", "why_tests_cant": "unbounded nesting; the consumers of the tree assume this structure and abort otherwise", "anchors": ["src/bmd/parsing/parse.cpp", "src/bmd/enums.cpp"]}
{"id": "C51", "title": "The parser accepts only programs of the grammar", "statement": "For all tokens, if the BMS parser accepts them with some tree, then the grammar in grammar.ebnf derives exactly this tree from these tokens.", "quantifier": "all token sequences", "why_tests_cant": "infinitely many token sequences; a parser that skips or misplaces a token accepts all of the valid tests too", "anchors": ["src/bms/parsing/parse.cpp", "src/bms/parsing/grammar.ebnf"]}
{"id": "C52", "title": "The parser accepts every program of the grammar", "statement": "Every token sequence that the grammar in grammar.ebnf derives is accepted by the BMS parser, with the tree that the grammar gives it; hence the grammar is unambiguous.", "quantifier": "all token sequences and trees", "why_tests_cant": "infinitely many programs; look-ahead heuristics fail only for particular combinations of operators", "anchors": ["src/bms/parsing/parse.cpp", "src/bms/parsing/grammar.ebnf"]}
{"id": "C53", "title": "The parser answers for every source text", "statement": "For the tokens of every source text the BMS parser terminates with a program or with an error at one of the remaining tokens; it never fails an assertion or runs into undefined behavior.", "quantifier": "all source texts that are tokenized successfully", "why_tests_cant": "unbounded nesting and length; the aborting path needs an error inside of an annotation", "anchors": ["src/bms/parsing/parse.cpp"]}
{"id": "C54", "title": "Integers are printed in decimal", "statement": "For every 128-bit unsigned integer, to_string gives its decimal representation without leading zeros; for every 128-bit signed integer likewise, with a minus sign in front of negative ones.", "quantifier": "all 128-bit signed and unsigned integers", "why_tests_cant": "2^128 inputs; only numbers above 2^64 whose lower digits start with zero are wrong", "anchors": ["src/common/diagnostics.cpp"]}
{"id": "C55", "title": "Printing then parsing a program returns the same program", "statement": "The BMS code that the generator prints for a program (functions, constants, static assertions and all statements in them) is accepted by the tokenizer and the parser, and the resulting tree has the same structure as the program.", "quantifier": "all programs, all code options that indent with whitespace", "why_tests_cant": "structural induction over all programs, and the parser's unbounded look-ahead for comparison operators", "anchors": ["src/bmd/codegen/codegen_bms.cpp", "src/bms/parsing/parse.cpp", "src/bms/tokenization/tokenize.cpp"]}
{"id": "C56", "title": "The syntax tree is the parser's tree", "statement": "For every program that the parser returns, the conversion to the syntax tree succeeds; the result has the same structure, operators, names and literals, nothing is recorded in it yet, and every function, parameter, constant and variable has an identity of its own.", "quantifier": "all token sequences that the parser accepts", "why_tests_cant": "structural induction over all programs; the operator tables of the two trees must agree for every operator", "anchors": ["src/bms/ast.cpp", "src/bms/parsing/astp.hpp"]}
{"id": "C57", "title": "An accepted source text runs as it means", "statement": "If a source text is accepted by the tokenizer, the parser, the name lookup and the analysis, then running the code of one of its functions ends with the value or error that calling the function means, or runs forever if the call does; the machine never gets stuck.", "quantifier": "all source texts, all functions in them, all arguments of the declared types", "why_tests_cant": "all programs and all executions, and it composes the invariants of five passes", "anchors": ["src/cli/compile.cpp", "src/bms/ast.cpp", "src/bms/analyze_name_lookup.cpp", "src/bms/analyze.cpp", "src/bms/vm/codegen.cpp"]}
{"id": "C58", "title": "The front end answers every source text", "statement": "For every source text the compiler finishes with an analysed program or with an error that it reports; no assertion fails, no exception escapes and no behaviour is undefined.", "quantifier": "all source texts", "why_tests_cant": "the crashing texts are a sparse set, found only by following the preconditions of every step", "anchors": ["src/cli/compile.cpp", "src/bms/tokenization/tokenize.cpp", "src/bms/parsing/parse.cpp", "src/bms/ast.cpp", "src/bms/analyze_annotations.cpp", "src/bms/analyze_name_lookup.cpp", "src/bms/analyze.cpp"]}
{"id": "C59", "title": "What the analysis records is what the source means", "statement": "For every accepted program, the types and values that the analysis records for constants and variables are those the source program has, every accepted static assertion is true in the source program, and the meaning of calls that is computed with the recorded types and values is the meaning of the source program, in which types of expressions, widths of types and values of constants are computed from the declarations.", "quantifier": "all accepted programs, all their declarations, all calls with any arguments, any number of steps", "why_tests_cant": "all programs; constants may depend on calls of functions whose types depend on other constants, so it takes an invariant over the interleaved analysis, code generation and execution", "anchors": ["src/bms/analyze.cpp", "src/bms/vm/codegen.cpp", "src/bms/vm/vm.cpp"]}
{"id": "C60", "title": "Every annotation is checked against the construct it is written on", "statement": "A source text is accepted only if each of its annotations, wherever it stands in the program, has a known name, belongs on the construct it is written on, and has the arguments it takes; otherwise the error reported is about the first annotation in the source for which this fails.", "quantifier": "all source texts and all syntax trees, with annotations at any depth", "why_tests_cant": "annotations may stand on any construct at any depth, and an annotation that is skipped shows no effect", "anchors": ["src/bms/analyze_annotations.cpp", "src/bms/util.cpp"]}
{"id": "C61", "title": "The HTML page of a document shows the document", "statement": "When a parsed document is converted to HTML, the result is well-formed, and a reader of it sees exactly the document: the stylesheets, each paragraph as a p element, each directive as the element it stands for with its arguments as attributes, code with an element for each token, instructions with links, and all text, with angle brackets as character references, in the order of the document, with white space exactly where the document has it.", "quantifier": "all parsed documents of any size and nesting, all stylesheets, all orders of attributes", "why_tests_cant": "all documents; nested directives, attributes, code and white space interact through the state of the writer", "anchors": ["src/bmd/html/doc_to_html.cpp", "src/bmd/html/bms_to_html.cpp", "src/bmd/html/html_writer.cpp"]}
{"id": "C62", "title": "Code blocks keep their layout", "statement": "When code is converted to HTML, the characters shown, white space included, are those of the code, in the same lines and columns.", "quantifier": "all code texts of any length", "why_tests_cant": "all sequences of tokens, lines and columns", "anchors": ["src/bmd/html/bms_to_html.cpp", "src/bmd/html/html_writer.cpp"]}
{"id": "C63", "title": "Each document in order is converted to HTML", "statement": "When a parsed document has its metadata at the beginning, at most one title, and only languages, architectures and code that are known, its conversion to HTML ends with a page: no assertion fails, no error is reported, and nothing undefined happens.", "quantifier": "all parsed documents of any size and nesting, all stylesheets, all orders of attributes", "why_tests_cant": "all documents; whether an assertion of the writer fails depends on the whole sequence of calls", "anchors": ["src/bmd/html/doc_to_html.cpp", "src/bmd/html/bms_to_html.cpp", "src/bmd/html/html_writer.cpp"]}
{"id": "C64", "title": "Instances of bit-generic functions", "statement": "Asking for an instance of a bit-generic function with some widths gives a function that is the generic one with these widths filled in for its generic parameters; in it, uses of names lead to the declarations of the instance where they led to those of the generic function; its declarations are new, the generic function and other instances stay as they are, and asking for the same widths again gives the same instance. There is such an instance for each bit-generic function of a program and any widths.", "quantifier": "all bit-generic functions, all widths, any sequence of instantiations", "why_tests_cant": "all trees; stale references into the generic function are only visible in later passes", "anchors": ["src/bms/instantiate.cpp", "src/bms/deduction.hpp", "src/bms/ast.hpp"]}
{"id": "C65", "title": "Deduction of widths", "statement": "A call of a bit-generic function with as many arguments as parameters is a call of an instance whose generic parameters have exactly the widths of the arguments; if an argument for such a parameter has a type other than Uint, an error is reported.", "quantifier": "all bit-generic functions of parsed programs, all argument types, all sets of existing instances", "why_tests_cant": "all combinations of parameters and arguments; positions of widths shift if a parameter is skipped in one loop but not in the other", "anchors": ["src/bms/analyze.cpp", "src/bms/instantiate.cpp"]}
{"id": "C66", "title": "A diagnostic shows the place of the error", "statement": "For every source that the tokenizer, the parser of programs or the parser of documents does not accept, the error is reported at a place at which that error really is, and what is printed is a message with the line and column of that place, the line of the source and a mark under the character.", "quantifier": "all sources and documents that are not accepted, with and without colours", "why_tests_cant": "all places at which an error can occur, including the ends of lines and of the source; all lengths of lines", "anchors": ["src/common/diagnostics.cpp", "src/bms/tokenization/tokenize.cpp", "src/bms/parsing/parse.cpp", "src/bmd/parsing/parse.cpp"]}
{"id": "C67", "title": "Code, tokens and long texts are shown as they are", "statement": "Highlighted code on a terminal is the code with every span in its colour; the list of tokens has a line for every token with its place, kind and text; a long text is shown up to the limit and is cut off only behind it.", "quantifier": "all highlighted strings built by the generators, all sources, all texts and limits", "why_tests_cant": "all arrangements of spans and gaps, and all positions of special characters relative to the limit", "anchors": ["src/cli/glue.cpp", "src/common/diagnostics.cpp"]}
{"id": "C68", "title": "Every error of the analysis can be printed", "statement": "For every error that the analysis of a program reports, what is printed names the place of the failure with its line and column, shows that line with a mark, says which error it is, and shows the place and the reason of the cause if there is one; printing never fails.", "quantifier": "all errors that a place in the analysis can build, all sources and positions, with and without colours", "why_tests_cant": "the product of error codes, kinds of nodes, present and missing causes and values; each combination needs a program that leads to it", "anchors": ["src/common/diagnostics.cpp", "src/bms/analysis_error.hpp", "src/bms/analyze.cpp", "src/bms/analyze_name_lookup.cpp"]}
{"id": "C69", "title": "A failed assertion is explained by the comparison that failed", "statement": "If an assertion fails while a constant is evaluated and a comparison is reported with it, then it is the comparison that was asserted, with the values that were compared, and it does not hold.", "quantifier": "all programs, all expressions on both sides of a comparison, all values and all states of the machine before", "why_tests_cant": "all values of both sides, and all histories of the machine, which is shared by all evaluations", "anchors": ["src/bms/vm/vm.cpp", "src/bms/vm/vm.hpp", "src/bms/vm/codegen.cpp"]}
{"id": "C70", "title": "Calls of bit-generic functions become calls of instances", "statement": "In an accepted program, every call of a bit-generic function in a constant or static assertion has become the call of one of its instances that has the widths of the arguments; no call in a function that is not bit-generic leads to a bit-generic function any more; all other calls lead where they led before. The instances of a function have different widths and are checked.", "quantifier": "all parsed programs that the analysis accepts, with any number of bit-generic functions that call each other and themselves", "why_tests_cant": "all orders in which functions are reached and analysed at different levels, and all sets of instances that arise on the way", "anchors": ["src/bms/analyze.cpp", "src/bms/instantiate.cpp"]}
{"id": "C71", "title": "Result and Variant hold one object", "statement": "A Result or Variant behaves as a box with one content: copies, moves and assignments take over the content, accessors show it or throw, and at any time exactly the objects in the boxes are alive; none is lost, used after its end or destroyed twice.", "quantifier": "all sequences of constructions, copies, moves, assignments, deletions and accesses on any number of variables, for all contained types, and packs of 2 to 25 alternatives", "why_tests_cant": "all sequences of operations with all combinations of alternatives and aliasing", "anchors": ["src/common/result.hpp", "src/common/variant.hpp", "src/common/packs.hpp"]}
{"id": "C72", "title": "The command line tool reports what happened", "statement": "The tool ends with status 0 exactly if the command did what it is for, with a file of the right name: verify if the program in the file is accepted, generate if code was generated, which it shows, html if a page was made, which it shows or stores. Otherwise it ends with status 1 and prints a message. Files are read as they are; nothing but the output file of html is written, and that only for a page. Languages are known by their names.", "quantifier": "all command lines, contents of files, files that cannot be opened, read or created, and sizes of the disk", "why_tests_cant": "all programs, documents and states of the file system", "anchors": ["src/cli/main.cpp", "src/cli/compile.cpp", "src/cli/glue.cpp:152-164", "src/common/io.cpp", "src/bmd/codegen/codegen.cpp", "src/bmd/codegen/code_language.hpp"]}
{"id": "C73", "title": "The parser names the tokens that it expected", "statement": "When parsing fails, the error names at least one expected token, the token that was found is not among them, and the expected tokens are exactly those with which the missing phrase (a type, a statement, a declaration, a primary expression) can begin in the documented grammar; after annotations, exactly those that can begin something that can have annotations.", "quantifier": "all token sequences for which parsing fails", "why_tests_cant": "The sets of expected tokens are written by hand in the parser next to every check; a test sees one error at a time, and no test compares the sets with the grammar.", "anchors": ["src/bms/parsing/parse.cpp", "src/common/diagnostics.cpp"]}
{"id": "C74", "title": "The printed tree of a document shows the document", "statement": "For every parsed document, printing its tree succeeds and gives one line for each node, each argument of a directive and each missing block, in the order of the source, indented by the depth of the node, with the text of the source that belongs to it; texts are shortened only if they are wider than the limit, different short texts look different, and without the option for colors no colors are printed.", "quantifier": "all documents that are parsed, all widths, limits and orders of arguments", "why_tests_cant": "Printing asserts that no node begins at the end of the source, which has to hold for every node of every document; there are no tests of the printed tree.", "anchors": ["src/common/diagnostics.cpp:881-990", "src/bmd/parsing/parse.hpp:extract", "src/cli/main.cpp:dump_ast"]}
{"id": "C75", "title": "The listing of a machine program identifies the program", "statement": "The listing that dump_program prints has one line for each instruction, in order, and two programs with the same listing consist of the same instructions with the same operands.", "quantifier": "all programs of the virtual machine, of any length, and all ways of printing pointers as distinct words", "why_tests_cant": "Whether different programs look alike is a question about all pairs of programs; nothing tests the listing, which is switched off by a constant.", "anchors": ["src/bms/vm/instructions.cpp:12-133", "src/bms/vm/instructions.hpp:24-138", "src/bms/evaluation/builtin_function.hpp:16-19"]}
{"id": "C76", "title": "The project's tests of files pass exactly when what they expect has happened", "statement": "test_for_success returns true exactly if the file can be read and passes the stages of compilation up to the given one, test_for_success_then_introspect exactly if moreover the introspection accepts the program, and test_for_diagnostic exactly if the compilation ends in the given step with an error of the expected code, on the expected lines, and of the expected rule and token type; no file passes tests of two kinds.", "quantifier": "all contents of all files, all expectations, all places of errors", "why_tests_cant": "The tests are what is tested here: a harness that accepts a wrong result makes tests pass, and no test looks at that.", "anchors": ["src/test/program_file_testing.cpp:79-491", "src/test/program_file_testing.hpp:14-67", "src/test/diagnostic_policy.hpp:16-40", "src/bms/ast.cpp:351-362"]}
{"id": "C77", "title": "The printed tree of a program shows the program", "statement": "dump_ast prints a tree for every parsed program: every part of the program has a line of its own below the line of what it is a part of, indented by its depth, with its role, its kind, a word of its source, and a number; the numbers are those from zero on, each once, and smaller below; and programs that are shown the same are the same.", "quantifier": "all parsed programs, all indentations, with and without colors", "why_tests_cant": "No test prints the tree of a program, and a read beyond the end of an array of names may well go unnoticed.", "anchors": ["src/common/diagnostics.cpp:830-881", "src/common/diagnostics.cpp:976-982", "src/bms/parsing/astp.hpp:17-596", "src/bms/parsing/parse.cpp:490-1521", "src/cli/main.cpp:47-66"]}
