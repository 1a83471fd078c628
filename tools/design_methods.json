{
 "C01": "`tokenize` against an inductive relation `reading` of a line (SpecLex.v); both directions by induction over the rest of the line; uniqueness of readings by maximal munch.",
 "C02": "Positions are part of `reading`; theorem compares every token's span with the text at that span.",
 "C03": "Digit-by-digit value of a literal in SpecLex (positional sum), induction over the digits with the separators skipped.",
 "C04": "The errors are part of the reading relation (`reads_error`); `tokenize` gives exactly these, and never `Panic`.",
 "C05": "Two lines whose readings differ only in blanks and separators have the same tokens up to positions; induction over readings.",
 "C06": "Characterisation of `maybe_extract_command` by leading slash, name and argument text.",
 "C07": "`tokenize_int_list` against an inductive list specification, incl. overflow of i64 and exact error positions.",
 "C08": "Same for `tokenize_variable_list`.",
 "C09": "Derivation relation `derives` between token lists and trees (SpecGrammar.v); soundness by induction over the parser's fuel, completeness by induction over derivations with a measure that bounds the fuel; unambiguity from completeness.",
 "C10": "Fuel measure: the given fuel always suffices, no reader reaches `Panic`.",
 "C11": "Assignment lines characterised by their second token; complaint for every other `=`.",
 "C12": "Spans of nodes are the first to last token of their derivation; positions of complaints lie inside the line.",
 "C13": "Inserting parentheses around a derivable part keeps the meaning; by the grammar.",
 "C14": "Denotational semantics `meaning` in Q (SpecEval.v) parametrised by what variables give and what powers may give; simulation of `execute` by induction over trees.",
 "C15": "Inversion of `meaning`; leftmost-innermost error.",
 "C16": "Operand-level theorem for the remainder; refuted for a zero divisor (panic).",
 "C17": "Operand-level theorem with an independent definition of extreme argument.",
 "C18": "All crash sites enumerated by induction over the tree (modulus by zero, negative powers of zero, roots whose starting point is 0, overflowing precision); refuted in general by such expressions.",
 "C19": "`exponentiate` on integer exponents equals the product; for all precisions.",
 "C20": "Bisection invariant: the starting point is the best integer, Newton stops at once on exact roots.",
 "C21": "Newton iteration: AM-GM / Bernoulli in Q, the stop criterion gives an error bound growing with the root's degree; the one-unit claim is refuted for higher roots.",
 "C22": "Step bounds (logarithmic bisection, decreasing Newton sequence); fuel never runs out.",
 "C23": "Exact condition for the imaginary-root error, and that it arises only from powers.",
 "C24": "u8 addition of precision and extra precision modelled with overflow per build profile; refuted for 255.",
 "C25": "Refinement of `calculate` to an abstract variable map (SpecCalc.v); case analysis over recording, parsing, evaluation, assignment.",
 "C26": "SpecPrint.v: positional value of the printed digits; `representable` values are printed exactly.",
 "C27": "Same specification: nearest value with exactly `precision` digits.",
 "C28": "Printed texts are tokenized and evaluated again: composition of the printing and reading theorems.",
 "C29": "Erasing commas gives the text without the setting; groups of three specified separately.",
 "C30": "Alphabet, case and sign by the printing specification.",
 "C31": "Proved for radix 2..16; refuted for radix 1, which the command line accepts.",
 "C32": "Fraction text exact in decimal; refuted for other output radixes (fractions ignore the radix).",
 "C33": "Map laws over any number of lines, by induction over sessions.",
 "C34": "World of sessions and schedules (Sessions.v); value written = value read after any schedule without writes to that variable.",
 "C35": "Effect of the two commands on memory and file, for all lists.",
 "C36": "Effect of failing writes on memory, disk and reply; refuted for failures before the assignment itself (recording the line, marking variables as used), which end the line.",
 "C37": "Ownership of rows under any schedule; per line: the mentioned variables move to the new input (ProofsTouch*.v).",
 "C38": "Representation predicate `represents` between the four tables and an abstract store; preserved by every call; schedules by induction.",
 "C39": "Invariant of the abstract store.",
 "C40": "Refinement: every call on the tables equals the call on the abstract bounded queue.",
 "C41": "Identifiers increase along every schedule.",
 "C42": "Cursor invariant under other sessions' insertions and evictions.",
 "C43": "Every call under every fault either does everything or nothing.",
 "C44": "Which errors calls can return at all.",
 "C45": "Open on arbitrary content, idempotence, version gate.",
 "C46": "Editor sheet specification (SpecEditor.v), induction over key actions.",
 "C47": "Same.",
 "C48": "Same: position moves by one, shows the record.",
 "C49": "Invariant over all events.",
 "C50": "Key by key effect on line and cursor.",
 "C51": "Independent definition of partner parentheses by balance; jump finds it, uniquely and symmetrically.",
 "C52": "Terminal command stream interpreted on a one-row screen; window invariants; refuted for 5 columns.",
 "C53": "Same for the folded display; refuted for 2 columns (division by zero).",
 "C54": "Invariant over all lines and events.",
 "C55": "Effect table of settings commands (SpecCommands.v) equals the model, for all arguments.",
 "C56": "Invariant over lines from valid precisions.",
 "C57": "Command table, help list and dispatch for every name.",
 "C58": "Recording in memory and on disk, for every line and fault pattern.",
 "C59": "calculate with neither history, variables nor database.",
 "C60": "Frame property by case analysis.",
 "C61": "Exit keys, all events and states.",
 "C62": "Algebra of positions.",
 "C63": "Evicted owner: constraint error, file unchanged.",
 "C64": "Conjunction of the invariants over all events.",
 "C65": "Reply relation built from the grammar and meaning; composition of parsing, evaluation and printing.",
 "C66": "Screen semantics of terminal commands (SpecSession.v: rows above, current row, column); Enter as a whole.",
 "C67": "Without external faults no call of a program-made file fails: invariants `working_session` over all lines/events.",
 "C68": "C65 with the text relation `result_text`; existence and uniqueness of the text.",
 "C69": "Induction over typed lines, composing C50, C66 and calculate.",
 "C70": "Improper-argument specification with first fault and position; both directions.",
 "C71": "Effect on abstract history and variables of the three data commands in a working session.",
 "C72": "SpecSyntax.v: for every complaint the fact on the tokens; parser induction for truth, a scanner argument for `faulty iff no tree`.",
 "C73": "Main.v models main with terminal modes; case analysis of all ends; refuted for crashes.",
 "C74": "Main.v run twice: everything remembered is on disk by an invariant over all events, then C65/C68/C69 on the next run.",
 "C75": "Main.v one-shot branch, with C68.",
 "C76": "Main.v with C43-C45 and the invariants of C64.",
 "C77": "Main.v; prefix lemma for event runs, C61 and C67.",
 "C78": "SpecTerminal.v: a terminal with a size (scrolling, deferred wrap); simulation of the unbounded screen of C66/C69, folded, by induction over the commands the program writes.",
 "C79": "SpecTerminal.v: sessions in a loop with the terminal (`live`); invariant: the rows above, the line, the cursor; induction over events / lines. Refuted when the screen is full.",
 "C80": "Io.v: the session with a fault list consumed by every use of the terminal; simulation of the sound session up to the first failure, by induction over the events.",
 "C81": "Together.v: a file and a table of interactive programs; invariant (file made by the program, every waiting program a working session) by induction over the moves; effect of one line on the shared file from the single-session theorems.",
 "C82": "Kill.v: the event handled with the (k+1)-th database call failing. Lock-step of the failing and the working run (every function making calls), then what each kind of line has changed when it stops.",
 "C83": "Two runs with different iteration orders in lock-step: states equal up to the representation of the variable map, each loop over a set given a closed form invariant under permutation; then induction over the events. Refuted for the rows of /reloadvar.",
 "C84": "Invariant over sessions on a terminal that changes size: the last non-empty output was a display of the present line for the present width, which determines its rows whatever was there before.",
 "C85": "Relation between settings and the words that write them; the reading of words is proved to be exactly the putting of the settings one after the other (induction on the relation, and back by induction on the words), and that to be the record they mean.",
 "C86": "The command line of C85 composed with the one-shot run of C75; counterexample by computation.",
 "C87": "Invariant of a desk: each program's scrollback position is good for what it has left to recall; kept by every database call of any program (ProofsKept2: what no call breaks, no line breaks), moved by its own Up.",
 "C88": "A line is a tree of calls (Interleave.v); it is adequate: run alone it is calculate (induction on expressions). Invariant of a room: the file is a program's, and every tree in progress only makes calls that keep it so (a weakest precondition over all replies).",
 "C89": "A weakest precondition over all replies the file can give at the moment of each call (wp): induction on the expression gives the answer for all values compatible with those read; the calls are then located in the run (placed) and the values taken from there.",
 "C90": "Induction on the turns: what each turn does to the stored inputs and the capacity, as a queue operation; the calls of a line contain exactly one recording.",
 "C91": "Refuted by a computed run; the partial theorems by the same wp (only a call under an evicted record fails) and the queue of C90 (without resizing, only as many recordings as the capacity evict a record).",
 "C92": "The weakest precondition of C89 for the loops of /reloadvar and /purgevar and for /histcap; the readings are located in the run in order; for the remaining lines the only call is the recording, whose reply does not influence the answer.",
 "C93": "The calls a line can make, whatever the replies (calls), bound by what the line says; what each such call does to the rows, from the abstract store (represents); every turn of the program in the line is one of these calls (placed).",
 "C94": "In a working session evaluation equals a pure evaluator over the values of the variables (ProofsPure); a replaced occurrence is a leaf of the derivation, so the derivation of the new line is the old one with the leaf replaced (induction on the derivation, uniqueness of trees), and the pure evaluator is compositional up to positions.",
 "C95": "The pure evaluator looks only at the variables of the line; extensionality in the lookup function.",
 "C96": "The one-shot mode is a session without store and history; C95 between it and the other session; C75 for what main prints.",
 "C97": "The seven command lines are given; that the numbers up to 255 are read as themselves is computed for each of them, the effect of each line is C55, recording works in a working session.",
 "C98": "Reading printed digits (C28 generalised to any digits, and to fractions) composed with the pure evaluator and the uniqueness of the printed text (C68); order from the definition of the nearest representable number.",
 "C99": "The digit reader of the stored texts against SpecDamage's own digits_value; the evaluator's soundness proof redone with [reading] for variables and no assumption on the rows; the eviction loop removes a row each turn on any content (so the model's fuel never runs out), and the line just recorded survives it because the Front tag refers to it.",
 "C100": "A line with a place for a part is an outline with a variable in that place (SpecLaws.line_with); replacing the variable by two expressions of the same value and comparing both with the outline (C94's replacement lemma, twice). Formulas are evaluated by induction on SpecLaws.denotes against the executor; each law is an identity of Q proved by ring, field or the lemmas on powers, remainders, max and min.",
 "C101": "The evaluator gives the exact meaning (C14) under both settings, so the same value; the tree of the second line differs from that of the first in positions only (C94's lemma). For retyping, digits of any number in any radix are constructed by division and a line is rebuilt word by word against SpecLex.reading.",
 "C102": "SpecRounds states both loops as counted derivations with exact numbers. Above the root Newton's steps shrink by (d-1)/d each; Bernoulli's inequality turns d of them into a halving; the code's fuelled iteration agrees with any longer one, so the small count carries over.",
 "C103": "Induction over the grammar (SpecGrammar.derives) with the meaning relation: each operation multiplies the bounds, addition costs a factor 2 which its own character pays for; numerals by positional value, texts by the absence of leading zeros and by nearest-rounding against the bound itself.",
 "C104": "All paths through the call tree of a line (Interleave.line_io), for every reply, by induction over the expression and the loops; readings are of pairwise different variables because what was read is remembered and a failed reading ends the line; names are counted through the reading relation (each variable token starts with its own dollar sign); then along any interleaving.",
 "C105": "A predicate on the call tree of a line (every error reply ends it, and with that error; other replies never lead to a runtime error; stores and marks use the number the recording returned), by induction over the loops and the expression; the errors of a single call from the file it meets; then along any interleaving. For stops: an invariant of the room (a program without a database knows that there are no earlier lines) and a case analysis of every event.",
 "C106": "Two predicates on the call tree of a line, each by induction over the loops and the expression: whatever the replies, the variable keeps its value if the line leaves it alone; and if values read have a source, so have the remembered ones. Then an invariant of a program's seat (its variables, and the rest of the line if it is in the middle of one) along any turns.",
 "C107": "`Report.v` adds what the Rust runtime prints for the error `main` returns, with the derived Debug texts. An invariant of a waiting session (its window's width is the one the events say and is wide enough, the cursor is inside the line, without a database the history is known to be exhausted) gives the reason of every failing step; the file is one the program made, SQLite may refuse any call.",
 "C108": "A relation `agree P` between an outcome of the debug build and one of the release build (equal, or `P` holds and the first is the overflow panic) is shown for the three operations that depend on the profile and carried through evaluation (by induction on the tree), commands, lines, events, sessions and `main`; `P` says where. The grammar gives that a tree with a power comes from a line with one; integer arguments never overflow (C07).",
 "C109": "The session evaluated from the lines alone is carried along beside the real one through every event: the two handles hold the same file and differ in the scrollback position and the recalled lines only. Evaluating a line makes no scrollback call (C92's bound on the calls of a line) and reads only the current line and the submitted ones from the history, so the two answer alike.",
 "C110": "Invariant of the room of C88, over all turns: a ghost map from line numbers to radixes, the file booked in it, and for every program in the middle of a line the calls it can still make (C92's bound own_call) with the number it was given. Numbers only grow because the newest line is never evicted; a refused call leaves the file alone; an accepted one is as the data specification says.",
 "C111": "The reply to a line and the memory after it are functions of the memory before it (C95's pure evaluation, and: evaluation brings only variables that occur in the expression into memory, by induction on derivations). Two unrelated lines commute; induction on the permutation, and a refinement between dialogues and these functions in both directions.",
 "C112": "From C68 (the text shows the nearest representable number): the candidate floor(v*R^p + 1/2)/R^p is within half a unit, so the nearest is; representable numbers with p digits are representable with more; nearest, fraction in lowest terms and grouping commute with negation, and the text is unique for its value. The opposite line is evaluated by C100's formula lemma."
}