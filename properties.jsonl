{"id": "C01", "title": "Tokenization is maximal munch, sound and complete", "statement": "Tokenizing an expression line returns exactly the tokens of its unique reading: ASCII whitespace separates, each of + - * / % ^ ( ) = , is a token by itself, and every maximal run of other characters is one word (a `$` variable, one of the keywords sqrt/abs/max/min, or a number). Conversely every line with such a reading is accepted.", "quantifier": "every input string and every radix 2..16", "why_tests_cant": "infinitely many strings; a test only samples a few spellings and boundaries", "anchors": ["src/token.rs: Tokenizer::tokenize, Tokenizer::tokenize_on_multichar_end"]}
{"id": "C02", "title": "Token positions point at the token's own text", "statement": "For each token returned, the characters of the input at [start, start+width) are that token's source text; tokens are in input order and do not overlap, and everything outside them is whitespace.", "quantifier": "every accepted input string", "why_tests_cant": "off-by-one errors depend on the preceding characters; tests look at two lines", "anchors": ["src/token.rs: tokenize, tokenize_on_multichar_end", "src/position.rs: Positioned"]}
{"id": "C03", "title": "Numeric literals denote their exact value", "statement": "A word is accepted as a number iff, after removing every `_`, it is made of digits of the radix (either letter case) with at most one `.` and at least one digit; its value is exactly the positional value (integer part plus fractional part) as a reduced fraction, with no loss of precision.", "quantifier": "every word, every radix 2..16", "why_tests_cant": "unbounded digit strings and 15 radices", "anchors": ["src/token.rs: tokenize_on_multichar_end"]}
{"id": "C04", "title": "Lexical errors are reported for exactly the bad lines, at the bad text", "statement": "Tokenizing fails iff the line contains a non-ASCII character (error at the first one) or an expression word that is no variable, keyword or number (error at the first such word, carrying its text). It never crashes for radix 2..16. The reply to such a line is that complaint at that place.", "quantifier": "every input string, every radix 2..16", "why_tests_cant": "needs every string, including every malformed one", "anchors": ["src/token.rs: tokenize", "src/error.rs: ParseError"]}
{"id": "C05", "title": "Whitespace and digit separators never change the meaning", "statement": "Adding or removing whitespace around tokens leaves the sequence of token values unchanged, and adding `_` characters inside a number leaves its value unchanged.", "quantifier": "every token sequence and every placement of whitespace/underscores", "why_tests_cant": "all placements cannot be enumerated", "anchors": ["src/token.rs: tokenize, tokenize_on_multichar_end"]}
{"id": "C06", "title": "Command lines are recognised exactly by their leading slash", "statement": "An ASCII line is a command iff its first non-blank character is `/`; the command name is what follows up to the first whitespace, the arguments are everything after that one whitespace character; both carry the position they occupy in the line.", "quantifier": "every ASCII input string", "why_tests_cant": "all strings", "anchors": ["src/token.rs: maybe_extract_command, ParsedInput"]}
{"id": "C07", "title": "Integer argument lists are read exactly", "statement": "An integer-list argument is accepted iff it is a sequence of optionally `-`-prefixed integer literals; the result is the list of their values in order, and every accepted value fits a 64-bit signed integer. Everything else is an error; nothing crashes or wraps.", "quantifier": "every argument string", "why_tests_cant": "overflow boundaries and malformed sign sequences", "anchors": ["src/token.rs: tokenize_int_list"]}
{"id": "C08", "title": "Variable argument lists are read exactly", "statement": "A variable-list argument is accepted iff every word in it is a `$` variable; the result is exactly those names in order with positions relative to the argument text.", "quantifier": "every argument string", "why_tests_cant": "all strings", "anchors": ["src/token.rs: tokenize_variable_list"]}
{"id": "C09", "title": "Parsing is sound and complete for the precedence grammar", "statement": "A token sequence parses to a tree iff the tree reads back to exactly that token sequence and respects the grammar: ^ binds tightest, then %, then * and /, then + and -, all left associative; a prefix `-`, sqrt, abs or bare function name applies to the next operand only. In particular each line has at most one parse and every well-formed expression is accepted.", "quantifier": "every token sequence", "why_tests_cant": "expressions of any length and nesting", "anchors": ["src/syntax_tree.rs: SyntaxTree::new, read_expression, read_operand_or_operator, read_function_node", "src/token.rs: ORDERED_BINARY_OPERATORS"]}
{"id": "C10", "title": "The parser always terminates and never crashes", "statement": "For every token sequence the parser returns a tree or a syntax error; the `not in ORDERED_BINARY_OPERATORS` panic and the internal unwraps are unreachable.", "quantifier": "every token sequence", "why_tests_cant": "panic-freedom over all inputs is not testable", "anchors": ["src/syntax_tree.rs: read_expression, unwrap_operand, unwrap_operator"]}
{"id": "C11", "title": "Assignment is recognised exactly", "statement": "A line is an assignment iff its first two tokens are a variable and `=`; the rest must then be a well-formed expression; `=` anywhere else is rejected.", "quantifier": "every token sequence", "why_tests_cant": "all sequences", "anchors": ["src/syntax_tree.rs: SyntaxTree::new, read_operand_or_operator"]}
{"id": "C12", "title": "Syntax errors point into the line; nodes span exactly their tokens", "statement": "The position of every parsed (sub)expression starts at its first token and ends at the end of its last token; every syntax error position lies within the line.", "quantifier": "every token sequence produced by the tokenizer", "why_tests_cant": "depends on arbitrary nesting", "anchors": ["src/syntax_tree.rs: position, read_expression", "src/position.rs: Position::from_span, Position::from_between"]}
{"id": "C13", "title": "Parentheses only group", "statement": "Wrapping any operand in parentheses is always accepted and never changes the value of the line.", "quantifier": "every expression tree", "why_tests_cant": "every shape of expression", "anchors": ["src/syntax_tree.rs: ParenthesizedNode, read_parenthesized_node"]}
{"id": "C14", "title": "Evaluation is exact rational arithmetic", "statement": "The value of an expression built from numbers, variables, + - * / %, negation, abs, max, min and integer powers is the exact mathematical rational value, in lowest terms.", "quantifier": "every expression and every variable assignment", "why_tests_cant": "unbounded numbers and nesting; README promises no precision loss", "anchors": ["src/syntax_tree.rs: UnaryNode::execute, BinaryNode::execute, FunctionNode::execute"]}
{"id": "C15", "title": "Division by zero is an error, never a wrong value", "statement": "Evaluating a division fails with the division-by-zero error iff its operands evaluate and the divisor is 0; the first error in left-to-right evaluation order is the one reported, and it is reported at the operator.", "quantifier": "every expression and variable assignment", "why_tests_cant": "zero divisors may arise from arbitrary subexpressions", "anchors": ["src/syntax_tree.rs: BinaryNode::execute"]}
{"id": "C16", "title": "Modulus is the truncated remainder", "statement": "For a nonzero divisor, a % b is the unique r with a = q*b + r, q an integer, |r| < |b| and r zero or of a's sign; a % 0 is reported as an error.", "quantifier": "all pairs of rationals", "why_tests_cant": "sign combinations and rationals of any size", "anchors": ["src/syntax_tree.rs: BinaryNode::execute"]}
{"id": "C17", "title": "max and min pick the extreme argument", "statement": "max/min of one or more arguments returns one of the arguments and it bounds all of them; with no arguments it is an error.", "quantifier": "all argument lists", "why_tests_cant": "lists of any length", "anchors": ["src/syntax_tree.rs: FunctionNode::execute"]}
{"id": "C18", "title": "No expression crashes the calculator", "statement": "Evaluating any parsed expression with valid settings returns a value or an error, never a panic.", "quantifier": "every expression, variable assignment and setting", "why_tests_cant": "panic-freedom over all inputs", "anchors": ["src/syntax_tree.rs: execute", "src/operations.rs: exponentiate"]}
{"id": "C19", "title": "Integer powers are exact", "statement": "b^n for integer n equals the exact rational power (1/b)^|n| for negative n and nonzero b), with b^0 = 1, at any precision setting.", "quantifier": "all rationals b, all integers n", "why_tests_cant": "unbounded base and exponent", "anchors": ["src/operations.rs: exponentiate"]}
{"id": "C20", "title": "Exact integer roots are found exactly", "statement": "If the radicand is the d-th power of an integer k (k >= 0, or d odd) then the d-th root is returned exactly as k, not an approximation.", "quantifier": "all integers k, degrees d >= 2", "why_tests_cant": "search over unbounded integers", "anchors": ["src/operations.rs: exponentiate"]}
{"id": "C21", "title": "Irrational roots are accurate to the configured precision", "statement": "The d-th root returned differs from the true root by at most radix^-(precision+extra+1).", "quantifier": "all radicands, degrees, radices and precisions", "why_tests_cant": "accuracy of an iteration over unbounded inputs", "anchors": ["src/operations.rs: exponentiate"]}
{"id": "C22", "title": "Root extraction terminates", "statement": "The starting-point search and the Newton iteration both stop after finitely many steps.", "quantifier": "all radicands, degrees, radices and precisions", "why_tests_cant": "non-termination cannot be tested", "anchors": ["src/operations.rs: exponentiate"]}
{"id": "C23", "title": "Imaginary roots are rejected, and only those", "statement": "A fractional power fails with the imaginary-result error iff the radicand is negative and the (reduced) root degree is even.", "quantifier": "all bases and exponents", "why_tests_cant": "all rationals", "anchors": ["src/operations.rs: exponentiate"]}
{"id": "C24", "title": "Every precision setting accepted by /precision is usable", "statement": "With any precision and extra precision whose sum fits in 8 bits, powers and roots evaluate with that precision.", "quantifier": "all 8-bit precision pairs", "why_tests_cant": "boundary of fixed width arithmetic, build profile dependent", "anchors": ["src/operations.rs: exponentiate", "src/syntax_tree.rs: execute", "src/commands.rs: PrecisionCommand"]}
{"id": "C25", "title": "Evaluation has no side effects on variables; failed lines assign nothing", "statement": "Evaluating a line changes the value of at most the assigned variable, and only when the whole right-hand side evaluated; a line that fails to parse or evaluate leaves every variable's value unchanged.", "quantifier": "every line, store and database", "why_tests_cant": "every failing expression", "anchors": ["src/syntax_tree.rs: SyntaxTree::execute", "src/variable.rs: VariableStore"]}
{"id": "C26", "title": "Exactly representable results are printed exactly", "statement": "If the result has a finite expansion of at most `precision` digits in the output radix, the printed text denotes exactly the result and has no trailing fractional zeros nor a dangling point.", "quantifier": "all rationals, radices 2..16, precisions 0..255", "why_tests_cant": "all rationals", "anchors": ["src/operations.rs: make_decimal_string"]}
{"id": "C27", "title": "Other results are printed correctly rounded with exactly `precision` digits", "statement": "If the result is not representable, the text has exactly `precision` fractional digits and denotes the nearest representable value, ties away from zero.", "quantifier": "all rationals, radices 2..16, precisions 0..255", "why_tests_cant": "rounding carries and ties", "anchors": ["src/operations.rs: make_decimal_string"]}
{"id": "C28", "title": "Printed results read back", "statement": "Printing a representable result without comma separators and typing the text back (same radix) yields the same value.", "quantifier": "all representable rationals, all radices", "why_tests_cant": "round trip over an infinite set", "anchors": ["src/operations.rs: make_decimal_string", "src/token.rs: tokenize"]}
{"id": "C29", "title": "Comma grouping is purely cosmetic", "statement": "With comma separators the integer part is split in groups of three digits from the right (first group 1..3 digits), and removing the commas gives exactly the text printed without them.", "quantifier": "all rationals, radices, precisions", "why_tests_cant": "unbounded length", "anchors": ["src/operations.rs: make_decimal_string"]}
{"id": "C30", "title": "Output uses only digits of the output radix, in the requested case, with a correct sign", "statement": "The printed digits are valid digits of the output radix, letters are upper case iff requested, and a `-` is printed iff the result is negative.", "quantifier": "all rationals, radices, precisions", "why_tests_cant": "all rationals", "anchors": ["src/operations.rs: make_decimal_string"]}
{"id": "C31", "title": "Every accepted output radix can print", "statement": "Printing never crashes for any output radix the program accepts.", "quantifier": "all accepted --convert-to-radix and /converttoradix values, all results", "why_tests_cant": "needs all values", "anchors": ["src/main.rs: Args, calculate", "src/operations.rs: make_decimal_string"]}
{"id": "C32", "title": "Fractional output is exact", "statement": "With fractional output the text is n or n/d in lowest terms and denotes exactly the result, in the output radix.", "quantifier": "all rationals", "why_tests_cant": "all rationals", "anchors": ["src/main.rs: calculate"]}
{"id": "C33", "title": "Within a session variables behave like a map", "statement": "After any sequence of lines, using $x gives the value of the latest successful assignment to $x, unless it was purged or reloaded since.", "quantifier": "every sequence of input lines", "why_tests_cant": "histories of any length", "anchors": ["src/variable.rs: VariableStore::get, VariableStore::update, VariableStore::purge", "src/main.rs: calculate"]}
{"id": "C34", "title": "Variable values survive restart exactly", "statement": "A variable saved by one session and still on disk loads in a later session with exactly the same value.", "quantifier": "all names, rationals and intervening operations on other variables", "why_tests_cant": "unbounded numbers through text storage", "anchors": ["src/saved_data.rs: set_variable, get_variable", "src/variable.rs: reload"]}
{"id": "C35", "title": "/purgevar forgets in both places; /reloadvar takes the disk value", "statement": "After purging $x, $x is unknown both in the session and on disk, other variables are untouched; after reloading, $x has the on-disk value if there is one and is otherwise unchanged.", "quantifier": "every store and database state", "why_tests_cant": "every state", "anchors": ["src/variable.rs: purge, reload", "src/commands.rs: PurgeVarCommand, ReloadVarCommand"]}
{"id": "C36", "title": "A failed disk write does not lose the assignment in memory", "statement": "An assignment always takes effect for the running session even if saving it fails, and the failure is reported.", "quantifier": "every store, database and fault", "why_tests_cant": "fault injection at every point", "anchors": ["src/variable.rs: VariableStore::update"]}
{"id": "C37", "title": "Saved variables live exactly as long as the last input that used them", "statement": "A saved variable is removed from disk exactly when the history entry that last set or used it is evicted (or it is purged); each use moves it to the newest entry.", "quantifier": "every sequence of database operations", "why_tests_cant": "histories of any length", "anchors": ["src/saved_data.rs: touch_variable, enforce_history_size_with_transaction, open"]}
{"id": "C38", "title": "The on-disk history is always a well-formed list", "statement": "After any interleaving of operations by any number of sessions, with any failures, the stored history is a doubly linked list with consistent front/back tags whose identifiers increase from oldest to newest, and all references are valid.", "quantifier": "every operation sequence, interleaving and fault schedule", "why_tests_cant": "schedules and fault points are unbounded", "anchors": ["src/saved_data.rs: add_to_input_history, enforce_history_size_with_transaction, set_max_history_size"]}
{"id": "C39", "title": "History never exceeds its capacity, and the capacity stays valid", "statement": "The number of stored inputs never exceeds the configured capacity after any operation, and the capacity is always at least 1.", "quantifier": "every operation sequence", "why_tests_cant": "unbounded histories", "anchors": ["src/saved_data.rs: add_to_input_history, set_max_history_size, validate_max_history_size"]}
{"id": "C40", "title": "History is a bounded FIFO", "statement": "Storing an input appends it as the newest entry and evicts only the oldest entries, exactly as many as needed; lowering the capacity keeps exactly the newest entries; all surviving entries keep text and order.", "quantifier": "every operation sequence", "why_tests_cant": "refinement over all histories", "anchors": ["src/saved_data.rs: add_to_input_history, enforce_history_size_with_transaction"]}
{"id": "C41", "title": "History identifiers are never reused", "statement": "An identifier returned for a stored input is larger than all identifiers ever returned before, even after evictions.", "quantifier": "every operation sequence", "why_tests_cant": "depends on whole history", "anchors": ["src/saved_data.rs: add_to_input_history"]}
{"id": "C42", "title": "Scrollback across sessions is stable", "statement": "The entries fetched from disk by a session are, in order, the entries that were stored when the session started, newest first, cut only by eviction; entries stored after the session started (by it or by other sessions) are never returned.", "quantifier": "every interleaving of operations", "why_tests_cant": "interleavings of sessions", "anchors": ["src/saved_data.rs: get_prev_input_history, open"]}
{"id": "C43", "title": "Database operations are all-or-nothing", "statement": "A failing operation leaves the stored data exactly as before, and a crash between operations leaves a state satisfying all the invariants.", "quantifier": "every operation, fault and crash point", "why_tests_cant": "crash points", "anchors": ["src/saved_data.rs: transaction use in every method"]}
{"id": "C44", "title": "Own bookkeeping never violates referential integrity", "statement": "From any state reachable by the program, storing an input or changing the capacity never fails for reasons other than an external database error.", "quantifier": "every reachable database", "why_tests_cant": "all reachable states", "anchors": ["src/saved_data.rs: add_to_input_history, enforce_history_size_with_transaction"]}
{"id": "C45", "title": "Opening is idempotent, preserves data and respects the version gate", "statement": "Opening a compatible existing database changes no stored data; opening twice equals opening once; a database whose minimum version is newer is refused and left unmodified.", "quantifier": "every database", "why_tests_cant": "all databases", "anchors": ["src/saved_data.rs: SavedData::open"]}
{"id": "C46", "title": "Scrollback never crashes and always shows a real line", "statement": "For any sequence of up, down, edit and submit actions the displayed line is defined: no index is ever out of range.", "quantifier": "every action sequence and every database content", "why_tests_cant": "index arithmetic over all sequences", "anchors": ["src/input_history.rs: InputHistory"]}
{"id": "C47", "title": "Editing a recalled line never changes the history", "statement": "Edits made to recalled lines persist while navigating until a line is submitted; then all edits are discarded and the recorded history (plus the submitted line) is what is recalled.", "quantifier": "every action sequence", "why_tests_cant": "all sequences", "anchors": ["src/input_history.rs: input_finished, ensure_current_line_populated, current_line"]}
{"id": "C48", "title": "Up and down walk the history in order", "statement": "Up moves to the next older line - first this session's lines newest first, then those from disk - and fails only when there is none; down is its inverse and fails only at the line being composed.", "quantifier": "every history and position", "why_tests_cant": "all positions", "anchors": ["src/input_history.rs: try_to_go_to_earlier_line, try_to_go_to_later_line"]}
{"id": "C49", "title": "The cursor always stays inside the line", "statement": "After any sequence of key events the cursor is between 0 and the length of the displayed line, so no key can crash the editor.", "quantifier": "every key event sequence", "why_tests_cant": "all sequences", "anchors": ["src/main.rs: interactive_calc"]}
{"id": "C50", "title": "Editing keys do what they say", "statement": "Typing inserts the character before the cursor, backspace deletes before it, delete deletes at it, and nothing else in the line changes; movement keys do not change the line.", "quantifier": "every line, cursor and key", "why_tests_cant": "all states", "anchors": ["src/main.rs: interactive_calc", "src/input_history.rs: insert_char_into_current_line, remove_char_from_current_line"]}
{"id": "C51", "title": "Parenthesis jump finds the matching parenthesis", "statement": "Ctrl+N/M on a parenthesis moves to its matching parenthesis if there is one, jumping back returns, and otherwise does nothing; the depth counter never underflows.", "quantifier": "every line and cursor", "why_tests_cant": "nesting of any depth", "anchors": ["src/main.rs: interactive_calc"]}
{"id": "C52", "title": "The scrolling display always shows the cursor", "statement": "In inline mode the visible window is a valid slice of the line, fits the terminal and contains the cursor, for every terminal wide enough to be accepted.", "quantifier": "every line, cursor, previous scroll offset and width", "why_tests_cant": "all geometries", "anchors": ["src/main.rs: interactive_calc"]}
{"id": "C53", "title": "The wrapped display shows the whole line", "statement": "In wrapped mode the printed rows concatenate to the line, each fits the terminal, the cursor cell is the one of the character under the cursor, and no accepted width crashes.", "quantifier": "every line, cursor and width", "why_tests_cant": "all geometries", "anchors": ["src/main.rs: interactive_calc"]}
{"id": "C54", "title": "The radix settings always stay valid", "statement": "Starting from valid settings, after any sequence of lines the input radix and the output radix override are between 2 and 16.", "quantifier": "every sequence of lines", "why_tests_cant": "all sequences", "anchors": ["src/commands.rs: RadixCommand, ConvertToRadixCommand"]}
{"id": "C55", "title": "A settings command changes exactly its own setting", "statement": "A successful set command changes only its setting, to the given value; a query or a failing command changes no setting at all.", "quantifier": "every command line and settings", "why_tests_cant": "all argument strings", "anchors": ["src/commands.rs: execute of each command"]}
{"id": "C56", "title": "The precision settings set by commands always fit", "statement": "After a successful /precision command the sum of precision and extra precision fits in 8 bits, and this is preserved by every later line.", "quantifier": "every sequence of lines", "why_tests_cant": "all sequences", "anchors": ["src/commands.rs: PrecisionCommand"]}
{"id": "C57", "title": "Command dispatch is total and consistent", "statement": "Every command name and alias reaches its own command, any other name is an unknown-command error, building the command table never panics, /help lists every command once in alphabetical order, and /help with a name or alias gives the description of that command, saying why it cannot be used if that is so.", "quantifier": "every command name", "why_tests_cant": "all strings", "anchors": ["src/commands.rs: CommandExecutor, COMMAND_CONSTRUCTORS, HelpCommand"]}
{"id": "C58", "title": "Every submitted line is recorded exactly once", "statement": "Submitting a line appends exactly that line to the session history and (if available) the disk history before it is interpreted, whether or not it is valid.", "quantifier": "every line and state", "why_tests_cant": "all lines including failing ones", "anchors": ["src/main.rs: calculate", "src/input_history.rs: input_finished"]}
{"id": "C59", "title": "One-shot mode is stateless", "statement": "With --input no history, variable or database is read or written, any variable use or assignment is an error, and the result depends only on the text and the settings.", "quantifier": "every input text and settings", "why_tests_cant": "all inputs", "anchors": ["src/main.rs: main, calculate"]}
{"id": "C60", "title": "Expression lines never change settings", "statement": "Evaluating any non-command line leaves all settings unchanged, and commands other than /reloadvar and /purgevar leave all variables in memory unchanged and, except /histcap (whose trimming can evict), all variables on disk.", "quantifier": "every line and state", "why_tests_cant": "all lines", "anchors": ["src/main.rs: calculate", "src/commands.rs: Command"]}
{"id": "C61", "title": "The exit keys always exit and nothing else does", "statement": "Ctrl+D, Ctrl+Z and Ctrl+C end the session from any state, and no other key event ends it normally.", "quantifier": "every state and event", "why_tests_cant": "all states", "anchors": ["src/main.rs: interactive_calc"]}
{"id": "C62", "title": "Positions algebra is correct", "statement": "The span of two positions is the smallest position covering both; the between-position of two disjoint positions is exactly the gap between them; trimming a positioned text keeps the position on the trimmed text.", "quantifier": "all positions / texts", "why_tests_cant": "all values", "anchors": ["src/position.rs: Position::from_span, Position::from_between, Positioned::trim"]}
{"id": "C63", "title": "Concurrent sessions only fail cleanly", "statement": "If other sessions evict the history entry of the line being processed, saving a variable fails with a reported error and without damaging the database.", "quantifier": "every interleaving", "why_tests_cant": "interleavings", "anchors": ["src/saved_data.rs: set_variable", "src/variable.rs: update"]}
{"id": "C64", "title": "The interactive program keeps its state well formed", "statement": "Whatever keys are pressed, whatever size and cursor position the terminal reports and whichever database operations fail, the settings stay valid, every remembered value is in lowest terms and the database file stays one that the program's own operations can produce.", "quantifier": "every sequence of events, every terminal behaviour, every pattern of SQLite failures", "why_tests_cant": "unbounded event sequences and failure patterns", "anchors": ["src/main.rs: interactive_calc, calculate", "src/saved_data.rs: SavedData"]}
{"id": "C65", "title": "The reply to an expression line is determined by the language rules", "statement": "A blank line answers nothing; a line outside the grammar answers a syntax error; otherwise the answer is the value of the expression in the chosen format, or the error the rules of arithmetic give for it, or a reported database failure.", "quantifier": "every expression line, settings and state", "why_tests_cant": "every expression and every state", "anchors": ["src/main.rs: calculate", "src/syntax_tree.rs: SyntaxTree"]}
{"id": "C66", "title": "Enter prints the line, its reply and a fresh prompt", "statement": "In inline mode, pressing Enter leaves on the screen the submitted line folded to the window width, below it exactly the rows of the reply (the answer as it is, an input error after 'Error: ', an environment failure after 'Runtime Error: '), below that a fresh prompt with the cursor after it; earlier rows stay, and the session goes on with what interpreting that line made of it and an empty line.", "quantifier": "every line, reply, state and window at least 6 columns wide", "why_tests_cant": "every reply text and every geometry", "anchors": ["src/main.rs: interactive_calc, calculate"]}
{"id": "C67", "title": "A working database never causes a runtime error", "statement": "If no SQLite call fails for reasons outside the program, no line is ever answered with a runtime error, and the interactive program can end with an error only because of the display (window too narrow, coordinates beyond 16 bits) or a paste event; this holds after any history of lines and keys.", "quantifier": "every line, every sequence of events, every database the program can produce", "why_tests_cant": "unbounded histories; constraint violations would be runtime errors", "anchors": ["src/main.rs: calculate, interactive_calc", "src/saved_data.rs: SavedData", "src/variable.rs: VariableStore"]}
{"id": "C68", "title": "Answers are the value in the chosen format, character by character", "statement": "In a working session the answer to an expression is the text that value and settings determine: sign, shortest integer digits in the output radix, digit grouping, letter case, and either the exact expansion or exactly the configured number of digits of the nearest value (or the reduced fraction in fractional mode). The text is unique, and a value the arithmetic determines exactly is always the one answered.", "quantifier": "every expression, settings and state", "why_tests_cant": "all values, radixes and precisions", "anchors": ["src/main.rs: calculate", "src/operations.rs: make_decimal_string"]}
{"id": "C69", "title": "A typed session leaves the expected transcript", "statement": "Typing lines and pressing Enter after each, from a new inline session, interprets exactly those texts one after the other, each in the state the previous ones left, and the screen finally shows each line followed by the rows of its reply, and the prompt.", "quantifier": "every list of typable lines, every terminal, every database", "why_tests_cant": "unbounded sessions", "anchors": ["src/main.rs: interactive_calc, calculate", "src/input_history.rs: InputHistory"]}
{"id": "C70", "title": "An improper command line is told exactly what is wrong and where", "statement": "A command line is answered with a complaint about its text exactly if the command or help topic is unknown, or its arguments are not what that command takes: the complaint names the first fault (bad word, decimal, too large, dangling or doubled sign, wrong kind of token, too many arguments, radix / precision / capacity out of range), at that fault's position; such a line changes no setting and, beyond being recorded, nothing else.", "quantifier": "every command line, settings and state", "why_tests_cant": "all argument strings", "anchors": ["src/commands.rs: execute of each command", "src/token.rs: tokenize_int_list, tokenize_variable_list"]}
{"id": "C71", "title": "The data commands do exactly what they say", "statement": "In a working session /histcap reports or sets the capacity (trimming to the newest inputs and dropping exactly the variables that hung on trimmed ones), /purgevar forgets exactly the listed variables in memory and on disk, /reloadvar gives exactly the listed saved variables their saved values and reports on each listed variable once; without a database they say so and do nothing else.", "quantifier": "every argument list, memory and database", "why_tests_cant": "all lists and databases", "anchors": ["src/commands.rs: HistoryCapacityCommand, PurgeVarCommand, ReloadVarCommand", "src/saved_data.rs: SavedData"]}
{"id": "C72", "title": "Complaints about syntax are true", "statement": "When an expression line is not accepted, the reply is a complaint whose text and position tell a true fact about its tokens: the named token at that place is a misplaced =, comma or operator, an operator, prefix operator, function or comma there lacks its operand, the bracket there has no partner, the parentheses there are empty, or exactly there two operands meet without an operator; and a line has some such fault exactly if the grammar gives it no tree.", "quantifier": "every line and radix", "why_tests_cant": "all token sequences; the error comes out of rewriting passes far from the fault", "anchors": ["src/syntax_tree.rs: SyntaxTree::new, read_expression", "src/error.rs: SyntaxError"]}
{"id": "C73", "title": "The terminal is given back however a run ends", "statement": "A session puts the terminal into raw mode, and on the alternate screen exactly if asked; when the run has ended, by the user leaving, by an error or because the database or terminal could not be started, the terminal is out of raw mode and off the alternate screen. One-shot runs never touch it.", "quantifier": "every option, surroundings, sequence of events and way to end", "why_tests_cant": "all event sequences and all failures of the terminal and the database", "anchors": ["src/main.rs: main, interactive_calc"]}
{"id": "C74", "title": "The next run continues where the last one ended", "statement": "Whatever was typed in a session and however it ended (or crashed), as long as the lines fit the history and /histcap was not among them the file holds the old lines followed by the submitted ones and exactly the variables usable in that session; a later run, whatever its own settings, shows those lines with Up, newest first, and answers any expression as the first session's variables say.", "quantifier": "every first session, every later run, every expression", "why_tests_cant": "all sessions followed by all sessions", "anchors": ["src/main.rs: main, interactive_calc, calculate", "src/saved_data.rs: SavedData", "src/variable.rs: VariableStore", "src/input_history.rs: InputHistory"]}
{"id": "C75", "title": "A one-shot run prints one answer or one complaint and leaves everything alone", "statement": "With --input the program touches neither the database file nor the terminal, and prints either one answer on standard output or one complaint beginning with Error: on standard error, with status 0, or crashes; never status 1. The answer is the exact value of the expression in the chosen format.", "quantifier": "every input, settings and surroundings", "why_tests_cant": "all inputs", "anchors": ["src/main.rs: main, calculate"]}
{"id": "C76", "title": "No run spoils the database file", "statement": "Whatever the options, keys and failures, a run started with no file or with a file the program made leaves one the program could have made; a run that is not to use the database, cannot set up the terminal or cannot open the file (in particular one of a newer version) leaves it exactly as it was, and failing to open ends the run with an error status before anything is read.", "quantifier": "every run in every surroundings", "why_tests_cant": "unbounded runs and failure patterns", "anchors": ["src/main.rs: main, interactive_calc", "src/saved_data.rs: SavedData::open"]}
{"id": "C77", "title": "The exit status tells how a run ended", "statement": "An interactive run ends with status 0 exactly at the first exit key pressed while it runs; leaving writes nothing to the file and nothing but a newline to the terminal; nothing happens after the end; and where terminal and database work, a run ends with an error only because of the display or a paste.", "quantifier": "every run, every sequence of events, every surroundings", "why_tests_cant": "unbounded event sequences", "anchors": ["src/main.rs: main, interactive_calc"]}
{"id": "C78", "title": "On a real terminal nothing of an inline session is lost or overwritten", "statement": "In inline mode, on a terminal of any height and any width from six columns, wherever the session starts on it, the terminal at every moment shows what was there before, then every submitted line with its reply, long rows folded at the width, then the row being edited with the cursor where it belongs, and nothing below; rows leave the screen only by scrolling off the top, and only when there is no room.", "quantifier": "every terminal size, starting screen and sequence of events without a resize", "why_tests_cant": "all sizes and unbounded sessions; scrolling happens only when the screen is full", "anchors": ["src/main.rs: interactive_calc"]}
{"id": "C79", "title": "On the alternate screen nothing said is lost", "statement": "On the alternate screen, on a terminal of any size from three columns and wherever the cursor is when the program begins, the screen at every moment shows what was above that place, then every submitted line with its reply, long rows folded at the width, then the line being edited folded after its prompt with the cursor in its cell, and nothing below; rows leave the screen only by scrolling off the top.", "quantifier": "every terminal size, starting position and sequence of events without a resize", "why_tests_cant": "all sizes and unbounded sessions; the program asks the terminal for the cursor, so what it writes depends on what it wrote", "anchors": ["src/main.rs: interactive_calc"]}
{"id": "C80", "title": "A failing terminal ends a session cleanly and costs at most one line", "statement": "If asking for the cursor, the size or the next event, writing a command or flushing fails at any moment, the session ends there with an error status and the terminal given back; what was written is a beginning of what a working terminal would have got; the file is what the session would have left after the events read so far, or before the Enter that was read last - and in that case nothing of that line's answer had been written. A run whose uses of the terminal all work is not affected. A one-shot run that cannot write its line crashes with file and terminal untouched.", "quantifier": "every run and every pattern of failing uses of the terminal", "why_tests_cant": "a failure can come at any of unboundedly many uses", "anchors": ["src/main.rs: main, interactive_calc"]}
{"id": "C81", "title": "Programs open at once on one file share its history and variables", "statement": "Several programs may be open on the same database file, handling their events in any order. The file stays one the program can open; every program stays a working session and none reports a database error (if the databases work); within the capacity the stored history is exactly the lines all of them submitted, in the order of submission; an assignment answered in one program is on disk at once and, until some program sets or forgets that variable, is the value every program sees that has not used the variable before; a program without database neither sees nor changes any of it.", "quantifier": "any number of programs, any settings, any interleaving of their events, any failures of database calls (for the file)", "why_tests_cant": "the number of interleavings is unbounded", "anchors": ["src/main.rs: main, interactive_calc", "src/saved_data.rs: SavedData"]}
{"id": "C82", "title": "A program killed at any moment costs at most the line it was working on", "statement": "If the program is killed while it handles an event (power cut, SIGKILL), the database file is one the next run opens, and it is the file from before the event, or the one from after it, or - if the event was Enter - the line is stored and every variable has either the value it had when the line was stored or the one it would have had in the end. Within the capacity: every line submitted before is there, in order, the last may or may not be, and each variable has its value from before or after that line. Events other than Enter never change the file.", "quantifier": "any session history, any event, any moment (after any number of database calls), any file, any settings", "why_tests_cant": "crash points multiply with the inputs; a test can only sample them", "anchors": ["src/main.rs: interactive_calc, calculate", "src/saved_data.rs: SavedData"]}
{"id": "C83", "title": "The same keys give the same result in every run", "statement": "Two runs with the same options, surroundings (file, directory, terminal) and keys leave the same file, send the same text to the terminal, stdout and stderr, leave the terminal in the same modes and end the same way. In particular none of it depends on the order in which the program's hash sets happen to be iterated, which changes from run to run.", "quantifier": "any options, any events, any file made by the program, any pair of iteration orders of the hash sets", "why_tests_cant": "the iteration order is random: a test sees one of them, and passes or fails by chance", "anchors": ["src/main.rs: main, calculate", "src/commands.rs: ReloadVarCommand, PurgeVarCommand"]}
{"id": "C84", "title": "Whatever happens to the window, the terminal shows the line being edited", "statement": "Whatever keys are pressed and however the window is resized in between, whenever the program waits the terminal shows the line being edited, fitted to the present width, with the cursor on the character at the line's cursor: in inline mode (six columns or more) all of it or the part around the cursor in one row; on the alternate screen (three columns or more) all of it, folded, from the row where it was begun, if it fits below that. Nothing outside those rows is written until Enter, and Enter leaves the line folded to the present width and the reply below it.", "quantifier": "any events including resizes to any width and height, any contents the terminal is left with by a resize, any database", "why_tests_cant": "the display depends on the history of widths, scroll positions and edits, and on what the terminal does to its contents when resized", "anchors": ["src/main.rs: main"]}
{"id": "C85", "title": "Settings mean the same however and in whatever order they are written on the command line", "statement": "A command line is accepted exactly if its words write settings (long or short names, flags joined, values joined, after '=' or as the next word), none given twice, every number in its range; the run then has exactly the settings given and the documented defaults for the others, in whatever order and way they were written. A setting given twice or out of range is refused with status 2 whatever follows, --help or --version after proper settings is answered with status 0, and in both cases nothing else happens. Every combination of settings in range can be asked for.", "quantifier": "all sequences of words, all settings, any surroundings", "why_tests_cant": "the words of a command line combine without bound: clusters of letters, values, orders, repetitions", "anchors": ["src/main.rs: main, Args"]}
{"id": "C86", "title": "An expression can be given on the command line as it is", "statement": "bcalc -i EXPRESSION, --input EXPRESSION and --input=EXPRESSION print the exact value of every expression in the default format, or the complaint about it, with status 0, and leave the database alone.", "quantifier": "all expressions whose value is determined exactly, any surroundings", "why_tests_cant": "every expression, including those that look like an option", "anchors": ["src/main.rs: main, calculate, Args"]}
{"id": "C87", "title": "Scrolling back shows a program's own lines and then those stored when it started, whatever other programs do", "statement": "However the events of several programs sharing the file alternate, what a program recalls with Up is its own submitted lines, newest first, followed by the lines that were stored when it started, newest first: no line submitted elsewhere meanwhile appears, none is skipped and none changes places. Going up m times on a new line shows the m-th of them; it stops before the end only when all older lines have been dropped from the file, and with room in the history and its capacity unchanged it goes all the way.", "quantifier": "any number of programs with any settings, all histories of moves before and after the start, any failing database calls, any number of Up keys with any moves of the others between them", "why_tests_cant": "the interleavings of events and the contents of the file are unbounded", "anchors": ["src/main.rs: interactive_calc", "src/input_history.rs: try_to_go_to_earlier_line", "src/saved_data.rs: get_prev_input_history, add_to_input_history"]}
{"id": "C88", "title": "The database file stays sound however the database calls of several running programs interleave", "statement": "Several interactive programs use one database file at once. Whatever programs are started, whatever they are typed, in whatever order the single database calls of the lines they are processing alternate, and whichever calls fail, the file is at every moment one that the program can have made. A program that nobody interrupts does exactly what it does when events are handled in one piece.", "quantifier": "any number of programs with any settings, all sequences of events, all interleavings of the database calls of lines being processed, any failing calls", "why_tests_cant": "the interleavings are unbounded; a test sees one schedule", "anchors": ["src/main.rs: interactive_calc, calculate", "src/saved_data.rs: add_to_input_history, set_variable, touch_variable", "src/variable.rs: update, get"]}
{"id": "C89", "title": "A calculation is right even if other programs change the variables while it runs", "statement": "While a program processes an expression line, other programs may use and change the same database between any two of its database calls. The line is still answered exactly as the expression demands when every variable has the value the program remembered or, for a variable it did not remember, the value (or absence) it had in the file at some moment between Enter and the answer. An assigned variable then has the expression's value, in the program and in the file. Settings and remembered values stay, and values remembered in addition were in the file at such a moment. The only other outcome is a runtime error (C91). The values need not all belong to one moment: there is no snapshot.", "quantifier": "any number of programs with any settings and working databases, all sequences of events, all interleavings of the database calls, all expression lines", "why_tests_cant": "the interleavings are unbounded; a test sees one schedule", "anchors": ["src/main.rs: calculate", "src/variable.rs: get, update", "src/token.rs: execute"]}
{"id": "C90", "title": "The shared history is one queue: every line of every program enters it once, in order", "statement": "However the database calls of several programs interleave, once the file exists its history is what the recordings and the capacity changes, in the order in which they happened, make of a queue with a capacity from which the oldest lines go first. Every line a program processes - calculation, command or nonsense - is recorded by it exactly once while it is processed.", "quantifier": "any number of programs with working databases, all sequences of events, all interleavings of the database calls, all lines", "why_tests_cant": "the interleavings are unbounded; a test sees one schedule", "anchors": ["src/main.rs: calculate", "src/saved_data.rs: add_to_input_history, set_max_history_size"]}
{"id": "C91", "title": "Other programs cannot make a line fail with a runtime error", "statement": "While a program processes a line, whatever other programs do with the same database between its database calls, the line is not answered with a runtime error, as long as the database itself works. (False: if the line's own history record is evicted in the meantime, storing or touching a variable fails. It is the only way, and it cannot happen while nobody changes the capacity and no more lines are recorded meanwhile than it allows. The program goes on in any case.)", "quantifier": "any number of programs with working databases, all sequences of events, all interleavings of the database calls, all lines", "why_tests_cant": "the interleavings are unbounded; a test sees one schedule", "anchors": ["src/main.rs: calculate", "src/saved_data.rs: add_to_input_history, set_variable, touch_variable"]}
{"id": "C92", "title": "Commands do what they say even if other programs use the file while they run", "statement": "While a program processes a command line, other programs may use and change the same database between any two of its database calls. /reloadvar still reads every listed variable once, each reading being true of the file at a moment between Enter and the answer, in the order of the readings; it reports exactly the readings and afterwards remembers them and otherwise what it remembered before (or it is the runtime error of C91). /purgevar forgets exactly the listed variables, removes each from the file in one of its turns and says Done. /histcap reports the capacity of a moment between Enter and the answer, or has set the capacity at the moment of the answer. Every other command, and every line that is neither command nor expression, is answered and changes settings exactly as if the program were alone. An improper argument list is an error in the line and changes neither variables nor settings.", "quantifier": "any number of programs with any settings and working databases, all sequences of events, all interleavings of the database calls, all command lines", "why_tests_cant": "the interleavings are unbounded; a test sees one schedule", "anchors": ["src/main.rs: calculate", "src/commands.rs: execute_command", "src/variable.rs: reload, purge", "src/saved_data.rs: get_max_history_size, set_max_history_size"]}
{"id": "C93", "title": "A line changes nothing in the shared file but what it is for", "statement": "While a program processes a line, each of its database calls does to the file one of the following and nothing else: it records the line (evicting the oldest lines beyond the capacity and the variables last used by those); nothing; it notes that a variable the line uses was last used by this line; it stores a value for the variable the line assigns; it removes a variable the line purges; it sets the capacity to the number the line gives. Whatever other programs wrote in between stays. Starting a program on an existing file, typing, scrolling, pasting and pressing Enter itself leave the file as it is.", "quantifier": "any number of programs with any settings and working databases, all sequences of events, all interleavings of the database calls, all lines", "why_tests_cant": "the interleavings are unbounded, and a test sees the effects on the rows it looks at only", "anchors": ["src/main.rs: calculate", "src/saved_data.rs: add_to_input_history, set_variable, touch_variable, clear_variable, set_max_history_size"]}
{"id": "C94", "title": "Replacing a part of a line by one of the same value does not change the reply", "statement": "In an expression, or in the right side of an assignment, any number of the occurrences of a number or variable can be replaced by a parenthesised expression that has the same value: the line is answered with the same text, or with the same complaint (which may point at another place). In particular, after $y = E was answered, $y and (E) are interchangeable as long as $y and the variables of E keep their values and the settings stay the same (E not mentioning $y).", "quantifier": "all lines, all replacements of any number of occurrences, all expressions of the same value, all settings and all states of a session with a working database or none", "why_tests_cant": "the lines, replacements and states are unbounded", "anchors": ["src/syntax_tree.rs: SyntaxTree::new, execute", "src/main.rs: calculate", "src/variable.rs: lookup"]}
{"id": "C95", "title": "The reply depends only on the settings and the variables in the line", "statement": "Two sessions with the same settings in which the variables that occur in an expression line (or assignment) have the same values answer it with the same text or the same error: other variables, whether a value is in memory or only in the database, the lines entered before, the scrollback position, the rest of the database and the iteration order of maps make no difference.", "quantifier": "all expression lines, all pairs of working sessions with equal settings and equal values of the mentioned variables", "why_tests_cant": "the pairs of states are unbounded", "anchors": ["src/main.rs: calculate", "src/syntax_tree.rs: execute", "src/variable.rs: lookup"]}
{"id": "C96", "title": "The one-shot mode answers like a session", "statement": "A line in which no variable occurs gets from bcalc --input exactly what it gets in an interactive session with the same settings, whatever was done in that session before: the answer with a newline on standard output and nothing on standard error; or the error text, as the session prints it, on standard error and nothing on standard output; or a crash where the session crashes.", "quantifier": "all lines without variables, all valid settings, all working sessions, all machines", "why_tests_cant": "the lines and the session's past are unbounded", "anchors": ["src/main.rs: main, calculate"]}
{"id": "C97", "title": "Every combination of settings can be reached by commands", "statement": "For every input radix from 2 to 16, output radix (one from 2 to 16, or none), pair of precisions whose sum fits in 8 bits, and choice of fractions, commas and letter case, there are command lines that can be typed and that lead to exactly these settings from any other settings; each of them is answered Done and changes no variable. The same lines do for every starting point.", "quantifier": "all combinations of settings, all starting settings, all working sessions", "why_tests_cant": "the target and starting settings together are too many to try, and the session's state is unbounded", "anchors": ["src/commands.rs: execute_command, Radix, ConvertToRadix, Precision", "src/main.rs: calculate"]}
{"id": "C98", "title": "Answers can be entered again", "statement": "With decimal output in the input radix and without commas, an answer can be entered as a line, in the same or a later session with the same settings: the reply shows the same number, it is the same text if the first answer was exact, and entering that reply again gives it unchanged. With fractional output in radix ten the reply is always the very text entered. Every answer shows exactly one number, the one nearest to the value, and of two values printed under the same settings the smaller never shows as the larger.", "quantifier": "all expression lines, all settings in the given class, all working sessions", "why_tests_cant": "values, lines and settings are unbounded", "anchors": ["src/main.rs: calculate", "src/operations.rs: make_decimal_string", "src/token.rs: tokenize"]}
{"id": "C99", "title": "A damaged or foreign database file", "statement": "Whatever rows the database file contains: asking it for a variable changes nothing and gives no value if there is no such row, the quotient in lowest terms if both stored texts are whole numbers (perhaps signed, digits with underscores) and the second is not zero, and otherwise an error that names the unreadable text and the variable. No other call on the database crashes or runs forever, even if SQLite fails at any point. Over such a file every expression line that can be recorded is answered with its value, or the error, that it means with each variable standing for its row, and the session goes on. A file whose keys are unique and whose references to lines of the history are sound stays so at every moment, whatever programs do with it, and takes new lines as long as there is room. The program never crashes on a line because of what the file contains.", "quantifier": "all database contents, all schedules of SQLite failures for single calls, all sessions and lines", "why_tests_cant": "file contents, lines and histories are unbounded, and damaged contents are rarely tested at all", "anchors": ["src/saved_data.rs: get_variable, add_to_input_history, set_max_history_size, open", "src/main.rs: calculate", "src/commands.rs: ReloadVar"]}
{"id": "C100", "title": "The laws of arithmetic hold for what is typed", "statement": "In a line, two parenthesised expressions that have the same value can be interchanged, anywhere and at any number of places, without changing the reply. In particular a formula over typed expressions can be exchanged for any other that stands for the same rational number: addition and multiplication commute, associate and distribute; subtraction and division undo addition and multiplication (except by zero); the sign of a divisor does not matter to a remainder and that of the dividend passes through; powers with whole exponents add, multiply and distribute; absolute value, max and min satisfy their usual laws.", "quantifier": "all working sessions, all lines and places in them, all expressions that have a value, all formulas over them", "why_tests_cant": "a law quantifies over all expressions and all surrounding lines; the arithmetic is exact for every size of number", "anchors": ["src/main.rs: calculate", "src/syntax_tree.rs: SyntaxTree::new, execute", "src/operations.rs: execute"]}
{"id": "C101", "title": "A line means the same in every radix it is typed in", "statement": "Two lines typed under two input radices that have the same words and whose numbers are the same get the same reply, provided answers are given in the same form and radix, the variables have the same values, and the line has an exact result or a complaint (no root is approximated). Every line can be retyped for any other input radix in which its numbers have finitely many digits.", "quantifier": "all pairs of input radices, all working sessions, all lines", "why_tests_cant": "there are unboundedly many lines and numbers, and 15 x 15 pairs of radices", "anchors": ["src/token.rs: tokenize", "src/main.rs: calculate", "src/syntax_tree.rs: execute"]}
{"id": "C102", "title": "Roots are found in few rounds", "statement": "A root that has a value is found by halving the whole numbers between 0 and the radicand, in at most one round more than the radicand has bits, and then, unless that found it, by Newton's formula repeated until it moves by at most one unit in the last kept digit, in at most 2 + d*(b + c*k) rounds (d the degree, b the bits of the radicand, c the bits of the radix, k the digits kept). The work therefore grows with the number of digits of the operands and the answer, not with their size.", "quantifier": "all radicands, degrees, radices and precision settings", "why_tests_cant": "a bound on the number of rounds for all inputs is a theorem about convergence; tests show single runs", "anchors": ["src/operations.rs: exponentiate"]}
{"id": "C103", "title": "Answers are no longer than what was typed", "statement": "In a line without powers and roots, the value in lowest terms has above and below the bar at most as many digits, in the input radix, as the line has characters (each naming of a variable counting D more if the variables named have at most D digits). The answer to such a line of L characters is at most 2 L + 2 characters long as a fraction (input radix at most 10), and L + precision + 3 characters, not counting commas, in decimal form (output radix at least the input radix).", "quantifier": "all lines without powers, all working sessions, all settings", "why_tests_cant": "the numbers in a line and the nesting of operations are unbounded", "anchors": ["src/syntax_tree.rs: execute", "src/operations.rs: make_decimal_string", "src/main.rs: calculate"]}
{"id": "C104", "title": "A line is answered after few uses of the database, whatever other programs do", "statement": "A line with n dollar signs is completed by the program's (2 n + 1)-th database operation at the latest (a command by the (2 n + 2)-th), whichever operations fail and whatever other programs on the same file do in between. The line is recorded first and once; a variable in it is marked as used at most once, read at most once and only if the program does not remember it, and written at most once, only if the line assigns it; /reloadvar, /purgevar and /histcap likewise read, purge, mark each listed variable once or read or set the capacity once; other lines do nothing but the recording.", "quantifier": "all lines, all programs sharing a file, all interleavings of their database operations and all faults", "why_tests_cant": "the interleavings, and the failures among them, are unbounded", "anchors": ["src/main.rs: calculate", "src/variable.rs: get, update, touch", "src/syntax_tree.rs: execute", "src/commands.rs: execute_command"]}
{"id": "C105", "title": "Runtime errors have a cause outside the program: no failure is swallowed and none invented", "statement": "If SQLite refuses a database operation of a line, that operation is the last one the line makes and the reply is that error: no failure is swallowed. The reply to a line is a runtime error only if its last operation was refused, or if the history record of the line was removed by then (the failed foreign key constraint). A program ends with an error only at an event at which its window is too narrow (or a row or column number does not fit in 16 bits), at a paste, or when Up reads the history and SQLite refuses; internal errors are never reported except for a paste.", "quantifier": "all lines, all programs sharing a file, all interleavings of their database operations and all faults", "why_tests_cant": "which operations fail, and what other programs do in between, is unbounded", "anchors": ["src/main.rs: main, calculate", "src/variable.rs: get, update, touch", "src/syntax_tree.rs: execute", "src/commands.rs: execute_command", "src/input_history.rs: try_to_go_to_earlier_line"]}
{"id": "C106", "title": "What a program remembers is its own business", "statement": "A value that a running program remembers for a variable stays as it is, whatever other programs do to the variable or to the file and whatever calls SQLite refuses, until the program itself submits an assignment to that variable or a /purgevar or /reloadvar listing it. And nothing is remembered from nowhere: a remembered value was in the file for that variable at some moment, or the program has submitted an assignment to the variable.", "quantifier": "all programs sharing a file, all interleavings of their database operations, all lines and all faults", "why_tests_cant": "the other programs' actions and the length of the session are unbounded", "anchors": ["src/variable.rs: get, update, reload, purge", "src/syntax_tree.rs: execute", "src/commands.rs: ReloadVarCommand, PurgeVarCommand", "src/main.rs: calculate"]}
{"id": "C107", "title": "A session gives up only when it must, and says why on the standard error", "statement": "An interactive run that ends with an error does so because the terminal could not be set up, the data directory is misconfigured or cannot be made, SQLite refused to open the file or to read the history when Up was pressed, the window was too narrow (fewer than five columns, two on the alternate screen) when the session looked at it, a line was longer than the terminal's 16-bit positions can say, or something was pasted; it goes on until then, and writes exactly 'Error: ', the message of that reason and a newline to the standard error. A file of a newer version is refused with its own message and left alone. Pasting and a window too narrow always end the session, so a session that goes on has room in its window; a session that has neither failed nor crashed has written nothing to the standard error.", "quantifier": "all sequences of events, widths, settings, files made by the program and SQLite faults", "why_tests_cant": "events, widths and faults are unbounded, and which event may end a session depends on everything before it", "anchors": ["src/main.rs: main, interactive_calc", "src/error.rs: InternalCalculatorError, CalculatorEnvironmentError, CalculatorDatabaseInconsistencyError", "src/saved_data.rs: open, get_prev_input_history", "src/input_history.rs: try_earlier"]}
{"id": "C108", "title": "A release build does what a debug build does, unless the debug build crashes", "statement": "The program compiled without overflow checks (cargo build --release) and with them (cargo build, cargo test) leave the same file, print the same, send the same to the terminal and end alike, whatever is typed, whichever SQLite calls and terminal operations fail, except for runs in which the debug build crashes on an arithmetic overflow; a run that crashes the release build crashes the debug build too. In a session they part only at the Enter of an expression with a ^ or a sqrt while precision and extra precision sum to 255 or more, or at a row of the screen beyond what a terminal can be asked for; a line gets the same answer from both while the sum is at most 254, and always if it is a command or has no power or root.", "quantifier": "all command lines, event sequences, settings, files, SQLite and terminal faults", "why_tests_cant": "tests exercise one build; agreement must hold for every run", "anchors": ["src/main.rs: main, Args", "src/operations.rs: exponentiate", "src/syntax_tree.rs: execute", "src/token.rs: tokenize_int_list"]}
{"id": "C109", "title": "How a line was typed does not matter", "statement": "What a session comes to depends only on the lines submitted in it. Wherever a session has got to, its settings, the variables it holds and the database file are what they would be if the submitted lines had been evaluated one after the other, with nothing typed, deleted, recalled with Up and Down, moved over or resized in between. Two sessions that start from the same file with the same options and in which the same lines were submitted, on whatever terminals, agree in all three and leave the same file, and each line gets the same reply in both.", "quantifier": "all event sequences, terminals, settings and files made by the program; SQLite refuses no call", "why_tests_cant": "tests type a few lines in one way; there are infinitely many ways to type a line", "anchors": ["src/main.rs: interactive_calc, calculate", "src/input_history.rs: input_finished, try_to_go_to_earlier_line", "src/saved_data.rs: get_prev_input_history, add_to_input_history"]}
{"id": "C110", "title": "Every saved variable is accounted for by a stored line", "statement": "At every moment, whatever programs share a database file, however their database calls interleave and whichever of them SQLite refuses, every saved variable goes with a line that is still stored in the file and that uses it, lists it in a /reloadvar, or assigns it; all variables that go with one line are found in it in one and the same radix. So the name of every saved variable can be read, letter for letter, in a stored line, and there are never more saved variables than dollar signs in the stored lines: the file cannot fill up with variables nobody can trace.", "quantifier": "all sequences of starts, key presses and database calls of any number of programs, all refusals, all settings, all starting files that are accounted for", "why_tests_cant": "a test follows one program through a few lines; the claim is about every interleaving and every refusal, and about evictions of the lines the variables hang on", "anchors": ["src/saved_data.rs: set_variable, touch_variable, add_to_input_history, set_max_history_size", "src/main.rs: calculate", "src/syntax_tree.rs: SyntaxTree::execute", "src/variable.rs: VariableStore::update, VariableStore::touch"]}
{"id": "C111", "title": "Unrelated lines can be entered in any order", "statement": "Lines of which none assigns a variable that another one mentions can be entered in any order: each line gets the same reply, word for word (an error too), no order crashes unless every order does, and afterwards the session has the same settings and remembers the same values for the same variables. This holds for any number of lines, with and without a database, as long as the variables used are in the session's memory or have no value at all (a value that is only on disk can be dropped while the lines are stored).", "quantifier": "all working sessions, all lists of pairwise unrelated expression or assignment lines, all permutations of them, all settings, all iteration orders of maps", "why_tests_cant": "the number of orders is factorial in the number of lines, and the lines, values and settings are arbitrary; a test tries two orders of one list", "anchors": ["src/main.rs: calculate", "src/syntax_tree.rs: execute", "src/variable.rs: get, update", "src/input_history.rs: input_finished"]}
{"id": "C112", "title": "How far an answer is from what was asked for", "statement": "The number an answer shows differs from the exact value of the line by at most half a unit of its last place, and it is the exact value precisely if that has no more digits than are shown. Two lines that get the same answer under the same settings have values at most one unit of the last place apart (with fractional output: the same value). More digits never make an answer worse. And whatever an expression is answered, its opposite -(...) is answered with the same text with the sign added or taken away, rounding included, in every radix and output format.", "quantifier": "all working sessions, all expression and assignment lines, all values, all settings", "why_tests_cant": "values are unbounded rationals and every radix, precision and rounding position is meant; a test looks at a few literals and cannot see a digit that is wrong only at some boundary", "anchors": ["src/operations.rs: make_decimal_string", "src/syntax_tree.rs: execute", "src/main.rs: calculate"]}
