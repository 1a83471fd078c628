# Formal model of bytesized/bcalc in Rocq (Coq 8.16.1)

(Sections 1-4 are written by hand in tools/design_head.md; section 5 is generated by
tools/gen_design.py from properties.jsonl, MANIFEST.json and tools/design_methods.json.)

## 1. What is modelled

The whole program logic, function by function, as total computable Gallina functions:

| Rust file | Coq model | contents |
|---|---|---|
| std / num contracts | `Base.v`, `Num.v` | chars and strings as `list N`, `outcome` (Ok / Err / Panic), `BigInt::{parse_bytes,to_str_radix}`, `BigRational` arithmetic |
| `position.rs` | `Position.v` | `from_span`, `from_between`, `trim`, positioned values |
| `error.rs` | `Errors.v` | all error enums and their `Display` texts |
| `token.rs` | `TokenTypes.v`, `Token.v` | token enums; `tokenize`, command extraction, list tokenizers |
| `operations.rs` | `Operations.v` | `make_decimal_string`, `exponentiate` (bisection and Newton) |
| `syntax_tree.rs` | `SyntaxTree.v` | parser, node positions, `execute`; the settings record `args` |
| `saved_data.rs` | `SavedData.v` | table-level model of the SQLite file with foreign keys, every API call, external faults |
| `variable.rs` | `Variables.v` | `VariableStore` |
| `input_history.rs` | `InputHistory.v` | `InputHistory` |
| `commands.rs` | `Commands.v` | the ten commands and the dispatcher |
| `main.rs:514-588` | `Calculate.v` | `calculate`, the one-shot mode |
| `main.rs:149-511` | `Editor.v` | the interactive event loop, both display modes |
| `main.rs:96-142` | `Main.v` | `main`: options, database opening, terminal modes, streams, exit status |
| the value `main` returns, `error.rs` (`derive(Debug)`) | `Report.v` | the standard error |
| `main.rs:44-97` and clap | `CommandLine.v` | the words of the command line, the whole process |
| `main.rs:96-511`, every `?` on the terminal | `Io.v` | the same run with a terminal that can fail at any use |
| the program killed | `Kill.v` | an interactive program killed while it handles an event |
| several processes, event by event | `Together.v` | interactive programs open at once on one file |
| several processes, call by call | `Interleave.v` | the same, interleaved at every database call of a line |
| several processes | `Sessions.v` | sessions sharing one file, any interleaving of API calls |

Panics are explicit values (`Panic why`), state that survives an error is returned next to the
error (`state -> state * outcome`), loops are structural recursion or recursion on explicit fuel whose
exhaustion is a distinguished value (`Panic OutOfFuel`) that theorems prove unreachable.

## 2. Layout of the development

* Specifications, independent of the model's helper functions: `SpecLex` (readings of a line), `SpecGrammar`
  (derivations), `SpecSyntax` (what complaints mean), `SpecEval` (meaning in Q), `SpecPrint` (printed texts),
  `SpecHistory` (abstract store and worlds), `SpecEditor` (sheet, partner parentheses, screen of one line), `SpecCalc` (effect of a line),
  `SpecCommands` / `SpecData` (effect of commands), `SpecSession` (screen, typing, transcript), `SpecMain` (runs),
  `SpecTerminal` (a terminal with a size, sessions on it), `SpecIo` (failing uses of the terminal),
  `SpecTogether` (programs open at once),
  `SpecKill` (half-done lines), `SpecOrder` (runs that differ in iteration order), `SpecResize` (sessions
  on a terminal that is resized), `SpecCommandLine` (settings and the words that write them),
  `SpecScroll` (scrolling back while others use the file),
  `SpecInterleave` (lines whose database calls interleave with those of other programs), `SpecDecimal` (integers
  in decimal), `SpecCompose` (replaced parts of lines), `SpecSettings` (lines that change settings), `SpecReentry` (the number an answer shows), `SpecDamage` (what a row of any content stands for), `SpecLaws` (formulas and the laws of arithmetic), `SpecNotation` (settings that differ in the input radix only), `SpecRounds` (finding a root round by round), `SpecSize` (the number of digits), `SpecCalls` (the database calls of a line), `SpecCause` (when SQLite refuses a call), `SpecMemory` (which lines concern a variable), `SpecReport` (the reasons to give up), `SpecProfile` (where two builds part), `SpecLines` (what the submitted lines come to), `SpecAccount` (what a saved variable goes with), `SpecUnrelated` (lines that have nothing to do with each other), `SpecAccuracy` (the value of a line, a unit of the last place).
* Proofs: `Proofs*.v`.  Property theorems, each with `Print Assumptions` and a concrete example: `Properties*.v`
  (Lex C01-C08, C62; Parse C09-C13; Eval C14-C24; Print C26-C32; Calc C25, C33, C35, C36, C58-C60, C64, C65;
  Db C34, C37-C45, C63; Editor C46-C53, C61; Commands C54-C57; Session C66-C69; Data C37, C70-C72; Main C73-C77;
  Terminal C78, C79; Io C80; Together C81; Kill C82; Order C83; Resize C84; CommandLine C85, C86; Scroll C87; Interleave C88-C91, Interleave2 C92-C93; Compose C94-C96; Reentry C97-C98; Damage C99; Laws C100; Notation C101; Rounds C102; Size C103; Calls C104; Cause C105; Memory C106; Report C107; Profile C108; Lines C109; Account C110; Unrelated C111; Accuracy C112).
* `seeded/LOG.jsonl`: wrong programs (edits of the model) and the theorems that caught them.

## 3. Trusted base

* Coq's kernel (8.16.1), its `vm_compute` for concrete examples and counterexamples. Every property theorem is followed by
  `Print Assumptions`, which answers "Closed under the global context": no axioms, not even the standard
  library's. (Loaded libraries declare some; no theorem uses them.)
* The reading of /repo: each definition cites file and lines; nothing checks it against the Rust code mechanically.
* Contracts assumed of dependencies (no source available here):
  - `num` arithmetic is exact and keeps rationals in lowest terms; `BigInt::from_str_radix` / `to_str_radix` as transcribed in `Num.v`;
  - SQLite executes each transaction atomically, enforces the declared foreign keys and constraints, allocates
    `max(rowid)+1`; a call that fails for outside reasons leaves the file as it was; a statement cannot fail after it has
    committed; rowids stay below 2^63;
  - `HashMap`/`HashSet` are finite maps/sets with arbitrary iteration order (a parameter, quantified in the theorems);
  - crossterm delivers events, reports some cursor position and width for each line (a parameter), and its commands act on
    a screen as `SpecSession.screen_after` says (rows above, the current row, the column; text as long as the width wraps where the
    program breaks the row itself); for C78 on, on a terminal with a size as `SpecTerminal.grid_after` says: one cell per
    character, a character past the last column goes to the next row, a line feed at the bottom scrolls, moving the cursor
    (CSI E of `MoveToNextLine` included) never scrolls;
  - clap 4.0.29 reads the words as `CommandLine.v` says (transcribed from its documented behaviour);
  - Rust `char` is one cell and the lines are ASCII where a theorem says `typable`; `usize` is unbounded except where the code
    converts to `u8`/`u16`/`i32`/`u32`, where overflow is modelled per build profile (`Debug` panics, `Release` wraps).

## 4. Not modelled

the texts of clap's help, version and error messages, arguments that are not Unicode; file-system paths (the file is its content, the
directory a success flag); what the Rust runtime prints for a panic, and the texts of foreign errors (`io::Error`, `VarError`, rusqlite) it prints when `main` returns one; memory and stack exhaustion; time; signals other than a kill (a
kill between database calls is C82; a crash point inside SQLite is covered by atomicity: the file is as before or after the call, C43).

## 5. Property by property

What is modelled is the code the anchors in properties.jsonl name; below, how each property is proved, its status and its theorems. `_refuted` theorems are counterexamples found in the code, `_partial` what holds instead. Every theorem listed prints `Closed under the global context`.

* **C01 Tokenization is maximal munch, sound and complete** (proved). `tokenize` against an inductive relation `reading` of a line (SpecLex.v); both directions by induction over the rest of the line; uniqueness of readings by maximal munch. Theorems: `C01_tokenize_iff_reading`, `C01_reading_unique`.
* **C02 Token positions point at the token's own text** (proved). Positions are part of `reading`; theorem compares every token's span with the text at that span. Theorems: `C02_positions`.
* **C03 Numeric literals denote their exact value** (proved). Digit-by-digit value of a literal in SpecLex (positional sum), induction over the digits with the separators skipped. Theorems: `C03_literal_value`, `C03_number_tokens`.
* **C04 Lexical errors are reported for exactly the bad lines, at the bad text** (proved). The errors are part of the reading relation (`reads_error`); `tokenize` gives exactly these, and never `Panic`. Theorems: `C04_reply`, `C04_lex_errors`, `C04_no_crash`.
* **C05 Whitespace and digit separators never change the meaning** (proved). Two lines whose readings differ only in blanks and separators have the same tokens up to positions; induction over readings. Theorems: `C05_whitespace_and_separators`, `C05_applies`.
* **C06 Command lines are recognised exactly by their leading slash** (proved). Characterisation of `maybe_extract_command` by leading slash, name and argument text. Theorems: `C06_commands`, `C06_every_slash_line`.
* **C07 Integer argument lists are read exactly** (proved). `tokenize_int_list` against an inductive list specification, incl. overflow of i64 and exact error positions. Theorems: `C07_int_list`, `C07_no_crash`, `C07_in_range`.
* **C08 Variable argument lists are read exactly** (proved). Same for `tokenize_variable_list`. Theorems: `C08_variable_list`, `C08_no_crash`.
* **C09 Parsing is sound and complete for the precedence grammar** (proved). Derivation relation `derives` between token lists and trees (SpecGrammar.v); soundness by induction over the parser's fuel, completeness by induction over derivations with a measure that bounds the fuel; unambiguity from completeness. Theorems: `C09_parse_iff_grammar`, `C09_grammar_unambiguous`.
* **C10 The parser always terminates and never crashes** (proved). Fuel measure: the given fuel always suffices, no reader reaches `Panic`. Theorems: `C10_parser_total`.
* **C11 Assignment is recognised exactly** (proved). Assignment lines characterised by their second token; complaint for every other `=`. Theorems: `C11_assignment`, `C11_no_assignment`, `C11_misplaced_assign`.
* **C12 Syntax errors point into the line; nodes span exactly their tokens** (proved). Spans of nodes are the first to last token of their derivation; positions of complaints lie inside the line. Theorems: `C12_node_spans`, `C12_error_in_line`.
* **C13 Parentheses only group** (proved). Inserting parentheses around a derivable part keeps the meaning; by the grammar. Theorems: `C13_parentheses_group`, `C13_every_line`.
* **C14 Evaluation is exact rational arithmetic** (proved). Denotational semantics `meaning` in Q (SpecEval.v) parametrised by what variables give and what powers may give; simulation of `execute` by induction over trees. Theorems: `C14_literals`, `C14_exact_value`, `C14_exact_value_any_precision`, `C14_sound`, `C14_meaning_unique`.
* **C15 Division by zero is an error, never a wrong value** (proved). Inversion of `meaning`; leftmost-innermost error. Theorems: `C15_division`, `C15_first_error`, `C15_error_origin`.
* **C16 Modulus is the truncated remainder** (partial). Operand-level theorem for the remainder; refuted for a zero divisor (panic). Theorems: `C16_modulus_partial`, `C16_remainder_unique`, `C16_zero_crashes`, `C16_modulus_by_zero_refuted`. Proved for every nonzero divisor. REFUTED for divisor 0: the code panics (num-rational division by zero) instead of reporting an error; C16_zero_crashes shows this for every dividend, C16_modulus_by_zero_refuted is the witness `1 % 0`.
* **C17 max and min pick the extreme argument** (proved). Operand-level theorem with an independent definition of extreme argument. Theorems: `C17_max_min`, `C17_no_arguments`.
* **C18 No expression crashes the calculator** (partial). All crash sites enumerated by induction over the tree (modulus by zero, negative powers of zero, roots whose starting point is 0, overflowing precision); refuted in general by such expressions. Theorems: `C18_crash_sites_partial`, `C18_crashing_powers`, `C18_no_crash_refuted`. REFUTED as stated: `1 % 0`, `0^(-1)` and `sqrt 0.5` panic. C18_crash_sites_partial proves these three shapes (modulus by zero, zero to a negative power, root of a radicand strictly between -1 and 1) are the only crashes; C18_crashing_powers proves that they always crash.
* **C19 Integer powers are exact** (proved). `exponentiate` on integer exponents equals the product; for all precisions. Theorems: `C19_integer_powers`, `C19_every_precision`.
* **C20 Exact integer roots are found exactly** (proved). Bisection invariant: the starting point is the best integer, Newton stops at once on exact roots. Theorems: `C20_exact_roots`, `C20_exact_sqrt`.
* **C21 Irrational roots are accurate to the configured precision** (partial). Newton iteration: AM-GM / Bernoulli in Q, the stop criterion gives an error bound growing with the root's degree; the one-unit claim is refuted for higher roots. Theorems: `C21_root_accuracy_partial`, `C21_sqrt_accuracy`, `C21_accuracy_refuted`. C21_root_accuracy_partial: the returned d-th root v is on the far side of the true root and at most (d-1) units away, and at most one unit whenever 2*d units <= 1; C21_sqrt_accuracy proves the claimed bound for every square root. REFUTED in general (C21_accuracy_refuted: radix 2, precision 0, 6th root of (3/2)^6 is off by more than one unit).
* **C22 Root extraction terminates** (proved). Step bounds (logarithmic bisection, decreasing Newton sequence); fuel never runs out. Theorems: `C22_roots_terminate`, `C22_powers_crash_only_themselves`.
* **C23 Imaginary roots are rejected, and only those** (proved). Exact condition for the imaginary-root error, and that it arises only from powers. Theorems: `C23_imaginary_iff`, `C23_sqrt`, `C23_error_origin`.
* **C24 Every precision setting accepted by /precision is usable** (partial). u8 addition of precision and extra precision modelled with overflow per build profile; refuted for 255. Theorems: `C24_usable_precision_partial`, `C24_precision_255_refuted`. Proved for every pair with precision+extra <= 254. REFUTED for sum 255 (accepted by /precision): precision+1 overflows u8, a panic in debug builds and zero digits in release builds.
* **C25 Evaluation has no side effects on variables; failed lines assign nothing** (proved). Refinement of `calculate` to an abstract variable map (SpecCalc.v); case analysis over recording, parsing, evaluation, assignment. Theorems: `C25_recording_keeps_variables`, `C25_only_the_assigned_variable`, `C25_failed_line_assigns_nothing`, `C25_unreadable_line_changes_nothing`.
* **C26 Exactly representable results are printed exactly** (proved). SpecPrint.v: positional value of the printed digits; `representable` values are printed exactly. Theorems: `C26_line_output`, `C26_exact_output`.
* **C27 Other results are printed correctly rounded with exactly `precision` digits** (proved). Same specification: nearest value with exactly `precision` digits. Theorems: `C27_rounded_output`.
* **C28 Printed results read back** (proved). Printed texts are tokenized and evaluated again: composition of the printing and reading theorems. Theorems: `C28_reads_back`.
* **C29 Comma grouping is purely cosmetic** (proved). Erasing commas gives the text without the setting; groups of three specified separately. Theorems: `C29_commas`.
* **C30 Output uses only digits of the output radix, in the requested case, with a correct sign** (proved). Alphabet, case and sign by the printing specification. Theorems: `C30_digits_and_sign`.
* **C31 Every accepted output radix can print** (partial). Proved for radix 2..16; refuted for radix 1, which the command line accepts. Theorems: `C31_radix_prints_partial`, `C31_radix_one_crashes`, `C31_radix_one_refuted`. Proved for every output radix 2..16. REFUTED for --convert-to-radix 1, which the command line accepts (clap range 1..17): every decimal result then panics.
* **C32 Fractional output is exact** (partial). Fraction text exact in decimal; refuted for other output radixes (fractions ignore the radix). Theorems: `C32_fraction_text_partial`, `C32_output_radix_refuted`. Proved for the decimal text (always radix 10). REFUTED for the output radix: fractional output ignores the radix settings (17 is printed as "17" in radix 16).
* **C33 Within a session variables behave like a map** (proved). Map laws over any number of lines, by induction over sessions. Theorems: `C33_assignment_remembered`, `C33_remembered_until_changed`, `C33_use_gives_the_value`.
* **C34 Variable values survive restart exactly** (proved). World of sessions and schedules (Sessions.v); value written = value read after any schedule without writes to that variable. Theorems: `C34_values_survive_exactly`, `C34_saved_value_is_there`.
* **C35 /purgevar forgets in both places; /reloadvar takes the disk value** (proved). Effect of the two commands on memory and file, for all lists. Theorems: `C35_purge`, `C35_reload`.
* **C36 A failed disk write does not lose the assignment in memory** (partial). Effect of failing writes on memory, disk and reply; refuted for failures before the assignment itself (recording the line, marking variables as used), which end the line. Theorems: `C36_save_failure_keeps_the_assignment_partial`, `C36_reply_tells_whether_saved_partial`, `C36_refuted`. REFUTED as stated: a database failure while recording the line (before evaluation) aborts the assignment, so memory does not get the value. The partial theorems prove that a failure of the save itself keeps the value in memory and is reported in the reply.
* **C37 Saved variables live exactly as long as the last input that used them** (proved). Ownership of rows under any schedule; per line: the mentioned variables move to the new input (ProofsTouch*.v). Theorems: `C37_line_moves_what_it_mentions`, `C37_owner_is_stored`, `C37_removed_exactly_by_eviction`, `C37_use_moves`, `C37_set_stores`, `C37_purge_removes`.
* **C38 The on-disk history is always a well-formed list** (proved). Representation predicate `represents` between the four tables and an abstract store; preserved by every call; schedules by induction. Theorems: `C38_always_well_formed`, `C38_open_well_formed`.
* **C39 History never exceeds its capacity, and the capacity stays valid** (proved). Invariant of the abstract store. Theorems: `C39_never_exceeds_capacity`, `C39_reported_capacity`.
* **C40 History is a bounded FIFO** (proved). Refinement: every call on the tables equals the call on the abstract bounded queue. Theorems: `C40_store_appends`, `C40_resize_keeps_newest`, `C40_nothing_else_changes_history`, `C40_behaves_like_the_specification`.
* **C41 History identifiers are never reused** (proved). Identifiers increase along every schedule. Theorems: `C41_identifiers_increase`.
* **C42 Scrollback across sessions is stable** (proved). Cursor invariant under other sessions' insertions and evictions. Theorems: `C42_scrollback_is_stable`.
* **C43 Database operations are all-or-nothing** (proved). Every call under every fault either does everything or nothing. Theorems: `C43_all_or_nothing`, `C43_crash_leaves_well_formed`.
* **C44 Own bookkeeping never violates referential integrity** (proved). Which errors calls can return at all. Theorems: `C44_bookkeeping_never_fails`, `C44_only_expected_failures`.
* **C45 Opening is idempotent, preserves data and respects the version gate** (proved). Open on arbitrary content, idempotence, version gate. Theorems: `C45_open_preserves`, `C45_reopen_is_identity`, `C45_newer_is_refused`.
* **C46 Scrollback never crashes and always shows a real line** (proved). Editor sheet specification (SpecEditor.v), induction over key actions. Theorems: `C46_scrollback_is_total`.
* **C47 Editing a recalled line never changes the history** (proved). Same. Theorems: `C47_edits_persist`, `C47_edits_leave_the_record`, `C47_submit_discards_edits`.
* **C48 Up and down walk the history in order** (proved). Same: position moves by one, shows the record. Theorems: `C48_up`, `C48_gives_up_only_at_the_end`, `C48_down`, `C48_up_then_down`, `C48_down_then_up`, `C48_position_shows_record`.
* **C49 The cursor always stays inside the line** (proved). Invariant over all events. Theorems: `C49_cursor_inside`.
* **C50 Editing keys do what they say** (proved). Key by key effect on line and cursor. Theorems: `C50_typing`, `C50_backspace`, `C50_delete`, `C50_nothing_to_delete`, `C50_movement`, `C50_other_keys_keep_the_line`, `C50_recall_puts_cursor_at_end`.
* **C51 Parenthesis jump finds the matching parenthesis** (proved). Independent definition of partner parentheses by balance; jump finds it, uniquely and symmetrically. Theorems: `C51_jump_finds_the_partner`, `C51_jump_returns`, `C51_partner_is_unique`, `C51_keys_jump`.
* **C52 The scrolling display always shows the cursor** (partial). Terminal command stream interpreted on a one-row screen; window invariants; refuted for 5 columns. Theorems: `C52_scrolling_display_partial`, `C52_scrolling_display_refuted`, `C52_scrolling_display_never_crashes`. Proved for every width from 6 columns on (and no width crashes). REFUTED for 5 columns, which the program accepts: the window is one cell and the cursor can land on the right-hand mark (C52_scrolling_display_refuted).
* **C53 The wrapped display shows the whole line** (partial). Same for the folded display; refuted for 2 columns (division by zero). Theorems: `C53_wrapped_display_partial`, `C53_wrapped_display_refuted`, `C53_narrow_is_reported`. Proved for every width from 3 columns on (line without newline characters, cursor row below 65536). REFUTED for 2 columns in the alternate screen: the program accepts the width and divides by zero (C53_wrapped_display_refuted is a whole-program witness).
* **C54 The radix settings always stay valid** (proved). Invariant over all lines and events. Theorems: `C54_radixes_stay_valid`, `C54_interactive`.
* **C55 A settings command changes exactly its own setting** (proved). Effect table of settings commands (SpecCommands.v) equals the model, for all arguments. Theorems: `C55_exact_effect`, `C55_effect_unique`, `C55_nothing_else_changes_settings`.
* **C56 The precision settings set by commands always fit** (proved). Invariant over lines from valid precisions. Theorems: `C56_precision_command`, `C56_preserved`, `C56_interactive`.
* **C57 Command dispatch is total and consistent** (proved). Command table, help list and dispatch for every name. Theorems: `C57_table`, `C57_help_list`, `C57_help_topic`.
* **C58 Every submitted line is recorded exactly once** (proved). Recording in memory and on disk, for every line and fault pattern. Theorems: `C58_recorded_in_session`, `C58_recorded_on_disk`, `C58_enter_submits_the_shown_line`.
* **C59 One-shot mode is stateless** (proved). calculate with neither history, variables nor database. Theorems: `C59_keeps_nothing`, `C59_same_text_same_answer`, `C59_variables_are_errors`, `C59_no_database_failure`.
* **C60 Expression lines never change settings** (proved). Frame property by case analysis. Theorems: `C60_expressions_keep_settings`, `C60_commands_keep_variables`.
* **C61 The exit keys always exit and nothing else does** (proved). Exit keys, all events and states. Theorems: `C61_exit_keys`, `C61_runs_end_by_exit_key`, `C61_exit_changes_nothing`.
* **C62 Positions algebra is correct** (proved). Algebra of positions. Theorems: `C62_span`, `C62_between`, `C62_trim`.
* **C63 Concurrent sessions only fail cleanly** (proved). Evicted owner: constraint error, file unchanged. Theorems: `C63_evicted_input_fails_cleanly`, `C63_stored_input_saves`, `C63_line_reports_and_assigns`.
* **C64 The interactive program keeps its state well formed** (proved). Conjunction of the invariants over all events. Theorems: `C64_interactive_state_stays_good`.
* **C65 The reply to an expression line is determined by the language rules** (proved). Reply relation built from the grammar and meaning; composition of parsing, evaluation and printing. Theorems: `C65_reply`, `C65_exact_reply`.
* **C66 Enter prints the line, its reply and a fresh prompt** (proved). Screen semantics of terminal commands (SpecSession.v: rows above, current row, column); Enter as a whole. Theorems: `C66_enter_prints_the_reply`, `C66_every_reply_has_one_text`, `C66_rows_unique`.
* **C67 A working database never causes a runtime error** (proved). Without external faults no call of a program-made file fails: invariants `working_session` over all lines/events. Theorems: `C67_no_runtime_errors`, `C67_interactive_session_works`.
* **C68 Answers are the value in the chosen format, character by character** (proved). C65 with the text relation `result_text`; existence and uniqueness of the text. Theorems: `C68_answer_is_the_value_in_the_chosen_format`, `C68_exact_answer`, `C68_text_determined`.
* **C69 A typed session leaves the expected transcript** (proved). Induction over typed lines, composing C50, C66 and calculate. Theorems: `C69_typing_composes_the_line`, `C69_transcript`, `C69_dialogue_unless_crash`.
* **C70 An improper command line is told exactly what is wrong and where** (proved). Improper-argument specification with first fault and position; both directions. Theorems: `C70_complaints`, `C70_one_complaint`. Finding: a word that is no number in an integer list is reported as 'Invalid variable name' (src/token.rs:374-391), and positions of argument faults are counted from the beginning of the argument text, not of the line; the specification states what the program does.
* **C71 The data commands do exactly what they say** (proved). Effect on abstract history and variables of the three data commands in a working session. Theorems: `C71_histcap`, `C71_purgevar`, `C71_reloadvar`, `C71_without_database`. Stated for a working database (no SQLite failure from outside); the row order of /reloadvar is the hash-set order, left arbitrary.
* **C72 Complaints about syntax are true** (proved). SpecSyntax.v: for every complaint the fact on the tokens; parser induction for truth, a scanner argument for `faulty iff no tree`. Theorems: `C72_line`, `C72_complaint_true`, `C72_faulty_iff_no_tree`.
* **C73 The terminal is given back however a run ends** (partial). Main.v models main with terminal modes; case analysis of all ends; refuted for crashes. Theorems: `C73_terminal_given_back_partial`, `C73_held_while_running`, `C73_one_shot_leaves_the_terminal`, `C73_refuted`. Finding: a crash (for example the division by zero of C18) unwinds past the code that restores the terminal (src/main.rs:128-135), which stays in raw mode and on the alternate screen: C73_refuted. Proved for every other end. Failures of terminal reads and writes inside the session: C80.
* **C74 The next run continues where the last one ended** (proved). Main.v run twice: everything remembered is on disk by an invariant over all events, then C65/C68/C69 on the next run. Theorems: `C74_everything_is_on_disk`, `C74_answers_survive_a_restart`, `C74_up_brings_back_the_stored_lines`, `C74_opens`. For inline mode and exactly determined values (power_exact); the history must have room, which the statement says.
* **C75 A one-shot run prints one answer or one complaint and leaves everything alone** (proved). Main.v one-shot branch, with C68. Theorems: `C75_one_shot_run`, `C75_one_shot_answer`. What the Rust runtime itself prints for a panic is not part of out_stderr.
* **C76 No run spoils the database file** (proved). Main.v with C43-C45 and the invariants of C64. Theorems: `C76_every_run_leaves_a_program_file`, `C76_untouched`, `C76_open_failures_are_reported`, `C76_newer_file_is_left_alone`.
* **C77 The exit status tells how a run ended** (proved). Main.v; prefix lemma for event runs, C61 and C67. Theorems: `C77_status_zero_by_exit_key`, `C77_leaving_changes_nothing`, `C77_the_end_is_the_end`, `C77_errors_in_working_surroundings`.
* **C78 On a real terminal nothing of an inline session is lost or overwritten** (proved). SpecTerminal.v: a terminal with a size (scrolling, deferred wrap); simulation of the unbounded screen of C66/C69, folded, by induction over the commands the program writes. Theorems: `C78_any_inline_session`, `C78_transcript`, `C78_folding_determined`, `C78_folding_exists`, `C78_terminal_keeps_its_size`. No newline characters in stored lines (none can be typed with the keys the theorem allows). Resizes are excluded: what a terminal does to its rows when resized differs between terminals.
* **C79 On the alternate screen nothing said is lost** (partial). SpecTerminal.v: sessions in a loop with the terminal (`live`); invariant: the rows above, the line, the cursor; induction over events / lines. Refuted when the screen is full. Theorems: `C79_any_session_partial`, `C79_dialogue_partial`, `C79_live_sessions_are_sessions`, `C79_told_determined`, `C79_refuted`. Finding: the alternate-screen code ends rows with MoveToNextLine (CSI E), which does not scroll: once the rows are used up, the next answer is written over and erased (C79_refuted: 3 rows, `1` then `2+5`: neither the line nor its answer 7 is anywhere; src/main.rs:176-231, 495-507). Proved for every session, and every typed dialogue, that fits on the screen; the terminal answers the program's questions from what it shows, and such a session is an instance of the sessions of all other properties (C79_live_sessions_are_sessions).
* **C80 A failing terminal ends a session cleanly and costs at most one line** (proved). Io.v: the session with a fault list consumed by every use of the terminal; simulation of the sound session up to the first failure, by induction over the events. Theorems: `C80_failure_is_a_clean_end`, `C80_sound_terminal`, `C80_no_failure_ignored`, `C80_file_sound`, `C80_at_most_the_last_line_is_lost`, `C80_one_shot`. The uses of the terminal are modelled in the order of the code (Io.v); the display is computed before its first command is written.
* **C81 Programs open at once on one file share its history and variables** (proved). Together.v: a file and a table of interactive programs; invariant (file made by the program, every waiting program a working session) by induction over the moves; effect of one line on the shared file from the single-session theorems. Theorems: `C81_file_sound`, `C81_sessions_work`, `C81_only_display_failures`, `C81_what_is_submitted`, `C81_one_history`, `C81_assignments_are_shared`, `C81_without_database`. Programs alternate event by event; interleavings of the single database calls are the subject of C42, C44, C63 (Sessions.v). A program that remembers an older value keeps it until reloadvar (shown in the example).
* **C82 A program killed at any moment costs at most the line it was working on** (proved). Kill.v: the event handled with the (k+1)-th database call failing. Lock-step of the failing and the working run (every function making calls), then what each kind of line has changed when it stops. Theorems: `C82_killed_at_any_moment`, `C82_at_most_the_last_line`, `C82_other_events_leave_the_file`, `C82_nothing_after_a_failure`, `C82_opening`, `C82_next_run`. A kill falls between two database calls (inside one, SQLite's atomicity decides for before or after, as in C43). It is modelled as failure of the next call; C82_nothing_after_a_failure justifies that: after a failing call an event makes no further one.
* **C83 The same keys give the same result in every run** (partial). Two runs with different iteration orders in lock-step: states equal up to the representation of the variable map, each loop over a set given a closed form invariant under permutation; then induction over the events. Refuted for the rows of /reloadvar. Theorems: `C83_same_outcome`, `C83_same_display_partial`, `C83_same_line`, `C83_same_one_shot`, `C83_refuted`. Finding: /reloadvar with two or more variables collects them in a HashSet (src/commands.rs:265-289) and prints its rows in that set's random order: C83_refuted shows two runs of the same keys printing the rows the other way round. Proved: file, streams, modes and ending never depend on the order, the commands sent are the same up to order (C83_same_outcome), and exactly the same if no submitted line is such a /reloadvar (C83_same_display_partial). For databases made by the program whose calls do not fail from outside.
* **C84 Whatever happens to the window, the terminal shows the line being edited** (proved). Invariant over sessions on a terminal that changes size: the last non-empty output was a display of the present line for the present width, which determines its rows whatever was there before. Theorems: `C84_inline`, `C84_inline_nothing_else`, `C84_inline_enter`, `C84_alternate`, `C84_alternate_nothing_else`. After a resize the terminal's contents, height and cursor row are arbitrary (SpecResize.resized_run), so the statement covers every way terminals treat their contents. The terminal's own size and the width in the resize event agree. Texts with a newline character (typable as a control key only) are excluded as in C78.
* **C85 Settings mean the same however and in whatever order they are written on the command line** (proved). Relation between settings and the words that write them; the reading of words is proved to be exactly the putting of the settings one after the other (induction on the relation, and back by induction on the words), and that to be the record they mean. Theorems: `C85_settings`, `C85_nothing_else`, `C85_one_meaning`, `C85_order`, `C85_refused`, `C85_help`, `C85_in_range`, `C85_every_combination`, `C85_process`. clap 4.0.29 is not in /repo: CommandLine.v transcribes its documented rules for the derive attributes in src/main.rs:44-94. The texts of help, version and errors are not modelled; words are Unicode.
* **C86 An expression can be given on the command line as it is** (partial). The command line of C85 composed with the one-shot run of C75; counterexample by computation. Theorems: `C86_one_shot_partial`, `C86_refuted`. Finding: an expression that begins with a minus sign, such as -5+3, is refused as a word after -i or --input (clap takes it for an option; the field lacks allow_hyphen_values): C86_refuted. Proved for --input=EXPRESSION without restriction, and for the other two if the expression does not begin with a minus sign.
* **C87 Scrolling back shows a program's own lines and then those stored when it started, whatever other programs do** (proved). Invariant of a desk: each program's scrollback position is good for what it has left to recall; kept by every database call of any program (ProofsKept2: what no call breaks, no line breaks), moved by its own Up. Theorems: `C87_recalled`, `C87_up`, `C87_all`. The whole-program form of C42, over the desks of Together.v; programs alternate event by event.
* **C88 The database file stays sound however the database calls of several running programs interleave** (proved). A line is a tree of calls (Interleave.v); it is adequate: run alone it is calculate (induction on expressions). Invariant of a room: the file is a program's, and every tree in progress only makes calls that keep it so (a weakest precondition over all replies). Theorems: `C88_file_sound`, `C88_uninterrupted`, `C88_covers_events`. Interleave.v turns the processing of a line into a sequence of database calls; the theorem C88_uninterrupted relates it to calculate (C58 on).
* **C89 A calculation is right even if other programs change the variables while it runs** (proved). A weakest precondition over all replies the file can give at the moment of each call (wp): induction on the expression gives the answer for all values compatible with those read; the calls are then located in the run (placed) and the values taken from there. Theorems: `C89_answer`, `C89_not_one_moment`. C89_not_one_moment shows that the per-variable form is the strongest: no snapshot is taken.
* **C90 The shared history is one queue: every line of every program enters it once, in order** (proved). Induction on the turns: what each turn does to the stored inputs and the capacity, as a queue operation; the calls of a line contain exactly one recording. Theorems: `C90_history`, `C90_recorded_once`. What counts as a recording is the program's own call to add its line to the history.
* **C91 Other programs cannot make a line fail with a runtime error** (partial). Refuted by a computed run; the partial theorems by the same wp (only a call under an evicted record fails) and the queue of C90 (without resizing, only as many recordings as the capacity evict a record). Theorems: `C91_refuted`, `C91_only_evicted_partial`, `C91_room_partial`, `C91_never_stopped`. FINDING: calculate records the line and later stores variables under that record without a transaction around both (src/main.rs:514-588); with a full history another program's line can evict the record in between, and the assignment fails with 'Runtime Error' (C91_refuted). Missing from the partial theorems: exactly those runs. C91_only_evicted_partial says it is the only cause; C91_room_partial gives a condition that excludes it.
* **C92 Commands do what they say even if other programs use the file while they run** (proved). The weakest precondition of C89 for the loops of /reloadvar and /purgevar and for /histcap; the readings are located in the run in order; for the remaining lines the only call is the recording, whose reply does not influence the answer. Theorems: `C92_reloadvar`, `C92_purgevar`, `C92_histcap`, `C92_other_lines`. A program killed in the middle of a line is one that never takes another turn, so C88-C93 cover kills at any database call of any of the programs.
* **C93 A line changes nothing in the shared file but what it is for** (proved). The calls a line can make, whatever the replies (calls), bound by what the line says; what each such call does to the rows, from the abstract store (represents); every turn of the program in the line is one of these calls (placed). Theorems: `C93_line_turns`, `C93_other_turns`. own_turn is stated on the rows of the file (inputs, capacity, saved variables with their owner), not on the calls.
* **C94 Replacing a part of a line by one of the same value does not change the reply** (proved). In a working session evaluation equals a pure evaluator over the values of the variables (ProofsPure); a replaced occurrence is a leaf of the derivation, so the derivation of the new line is the old one with the leaf replaced (induction on the derivation, uniqueness of trees), and the pure evaluator is compositional up to positions. Theorems: `C94_replace`, `C94_assigned`. comes_to uses the model's evaluator: the value of an approximated root is one particular fraction, which the rules of arithmetic (C16, C17) only bound, and replacing needs exactly that fraction.
* **C95 The reply depends only on the settings and the variables in the line** (proved). The pure evaluator looks only at the variables of the line; extensionality in the lookup function. Theorems: `C95_reply_depends_only_on`. The mentioned variables must agree also in whether there is a store at all (one-shot mode has none).
* **C96 The one-shot mode answers like a session** (proved). The one-shot mode is a session without store and history; C95 between it and the other session; C75 for what main prints. Theorems: `C96_one_shot_agrees`. With variables the one-shot mode always complains (C59).
* **C97 Every combination of settings can be reached by commands** (proved). The seven command lines are given; that the numbers up to 255 are read as themselves is computed for each of them, the effect of each line is C55, recording works in a working session. Theorems: `C97_every_setting_can_be_reached`. The choice of the alternate screen cannot be changed by a command (C55), so it is the same before and after.
* **C98 Answers can be entered again** (proved). Reading printed digits (C28 generalised to any digits, and to fractions) composed with the pure evaluator and the uniqueness of the printed text (C68); order from the definition of the nearest representable number. Theorems: `C98_answer_entered_again`, `C98_stable`, `C98_fraction_entered_again`, `C98_order_is_kept`, `C98_shows_one_number`. With commas the answer is not a line (C98_example): a comma separates arguments. In fractional output with another input radix the decimal text would be read in that radix (C32_output_radix_refuted).
* **C99 A damaged or foreign database file** (partial). The digit reader of the stored texts against SpecDamage's own digits_value; the evaluator's soundness proof redone with [reading] for variables and no assumption on the rows; the eviction loop removes a row each turn on any content (so the model's fuel never runs out), and the line just recorded survives it because the Front tag refers to it. Theorems: `C99_get_variable`, `C99_one_reading`, `C99_no_other_call_crashes`, `C99_session`, `C99_reply`, `C99_crash_sites_partial`, `C99_stays_consistent`, `C99_takes_lines`, `C99_crash_refuted`. The last sentence is refuted by C99_crash_refuted: a row whose denominator is zero makes the program divide by zero when the variable is used or named in /reloadvar. C99_crash_sites_partial shows that this, and the crashes of C18, are the only ones (with precision settings whose sum fits, C24).
* **C100 The laws of arithmetic hold for what is typed** (proved). A line with a place for a part is an outline with a variable in that place (SpecLaws.line_with); replacing the variable by two expressions of the same value and comparing both with the outline (C94's replacement lemma, twice). Formulas are evaluated by induction on SpecLaws.denotes against the executor; each law is an identity of Q proved by ring, field or the lemmas on powers, remainders, max and min. Theorems: `C100_interchange`, `C100_identities`, `C100_laws`. Laws with powers assume that the precision sum fits (digits_kept is defined), as in C24: otherwise a debug build crashes on any power.
* **C101 A line means the same in every radix it is typed in** (proved). The evaluator gives the exact meaning (C14) under both settings, so the same value; the tree of the second line differs from that of the first in positions only (C94's lemma). For retyping, digits of any number in any radix are constructed by division and a line is rebuilt word by word against SpecLex.reading. Theorems: `C101_same_reply`, `C101_rewritten`. Roots that are approximated are kept to a number of digits of the input radix, so they do depend on it (C101_roots_depend_on_radix); precision settings whose sum crashes a debug build are excluded as in C24.
* **C102 Roots are found in few rounds** (proved). SpecRounds states both loops as counted derivations with exact numbers. Above the root Newton's steps shrink by (d-1)/d each; Bernoulli's inequality turns d of them into a halving; the code's fuelled iteration agrees with any longer one, so the small count carries over. Theorems: `C102_rounds`, `C102_sqrt`, `C102_rounds_unique`. Rounds are counted, not time: the numbers in the rounds grow. The bound on Newton's rounds uses linear convergence (each d rounds halve the distance), so it is not tight.
* **C103 Answers are no longer than what was typed** (proved). Induction over the grammar (SpecGrammar.derives) with the meaning relation: each operation multiplies the bounds, addition costs a factor 2 which its own character pays for; numerals by positional value, texts by the absence of leading zeros and by nearest-rounding against the bound itself. Theorems: `C103_value`, `C103_answer`, `C103_powers_grow`. Powers are excluded because they do make numbers long (C103_powers_grow). Intermediate results obey the same bound, since every part of a line is such an expression (C103_value holds for the tokens of any derivation).
* **C104 A line is answered after few uses of the database, whatever other programs do** (proved). All paths through the call tree of a line (Interleave.line_io), for every reply, by induction over the expression and the loops; readings are of pairwise different variables because what was read is remembered and a failed reading ends the line; names are counted through the reading relation (each variable token starts with its own dollar sign); then along any interleaving. Theorems: `C104_few_calls`, `C104_calls`. A database operation is one transaction or statement of src/saved_data.rs; waiting for the file lock inside one operation (SQLite busy timeout) is not modelled, a lock that is not obtained is a fault.
* **C105 Runtime errors have a cause outside the program: no failure is swallowed and none invented** (proved). A predicate on the call tree of a line (every error reply ends it, and with that error; other replies never lead to a runtime error; stores and marks use the number the recording returned), by induction over the loops and the expression; the errors of a single call from the file it meets; then along any interleaving. For stops: an invariant of the room (a program without a database knows that there are no earlier lines) and a case analysis of every event. Theorems: `C105_line`, `C105_stopped`. C105_line is for a line of a program that uses the database; C67 covers the others (they have no runtime errors at all). SQLite's own error texts are one placeholder: SqliteError for a refusal, SqliteConstraint for a violated constraint (the code does not distinguish them).
* **C106 What a program remembers is its own business** (proved). Two predicates on the call tree of a line, each by induction over the loops and the expression: whatever the replies, the variable keeps its value if the line leaves it alone; and if values read have a source, so have the remembered ones. Then an invariant of a program's seat (its variables, and the rest of the line if it is in the middle of one) along any turns. Theorems: `C106_kept`, `C106_origin`. C33 is the same for one session whose lines run in one piece; here the other programs move between any two database calls of a line. What the value of a remembered variable is when it was read from the file is C89's.
* **C107 A session gives up only when it must, and says why on the standard error** (proved). `Report.v` adds what the Rust runtime prints for the error `main` returns, with the derived Debug texts. An invariant of a waiting session (its window's width is the one the events say and is wide enough, the cursor is inside the line, without a database the history is known to be exhausted) gives the reason of every failing step; the file is one the program made, SQLite may refuse any call. Theorems: `C107_gives_up`, `C107_must`, `C107_quiet`, `C107_newer`. Messages of errors that are not the program's own (io::Error, VarError, rusqlite's) are a parameter, as is the text of a panic. That an alternate-screen window of exactly two columns crashes is C53's refutation. Failures of the terminal in the middle of a session are C80's.
* **C108 A release build does what a debug build does, unless the debug build crashes** (proved). A relation `agree P` between an outcome of the debug build and one of the release build (equal, or `P` holds and the first is the overflow panic) is shown for the three operations that depend on the profile and carried through evaluation (by induction on the tree), commands, lines, events, sessions and `main`; `P` says where. The grammar gives that a tree with a power comes from a line with one; integer arguments never overflow (C07). Theorems: `C108_builds_agree`, `C108_where_they_part`, `C108_one_shot`, `C108_line`, `C108_process`, `C108_no_worse`, `C108_parting_is_real`. Only overflow checks distinguish the builds: the program has no cfg(debug_assertions) or debug_assert. That the unsigned subtractions of the editor cannot underflow in either build is C49 to C53's; the model panics there in both. The text of a panic and the symbols of the executable are not modelled.
* **C109 How a line was typed does not matter** (proved). The session evaluated from the lines alone is carried along beside the real one through every event: the two handles hold the same file and differ in the scrollback position and the recalled lines only. Evaluating a line makes no scrollback call (C92's bound on the calls of a line) and reads only the current line and the submitted ones from the history, so the two answer alike. Theorems: `C109_session`, `C109_same_lines`, `C109_file`, `C109_said`, `C109_same_replies`. Up reads the file, so with a SQLite that refuses calls at will the ways of typing can differ in which call is refused; hence the hypothesis that it refuses none. The hash-set orders at the n-th line are the same in both sessions. The alternate-screen option is the same in both, because it is one of the settings compared.
* **C110 Every saved variable is accounted for by a stored line** (proved). Invariant of the room of C88, over all turns: a ghost map from line numbers to radixes, the file booked in it, and for every program in the middle of a line the calls it can still make (C92's bound own_call) with the number it was given. Numbers only grow because the newest line is never evicted; a refused call leaves the file alone; an accepted one is as the data specification says. Theorems: `C110_accounted`, `C110_name_in_a_line`, `C110_few_variables`. C110_not_the_tables shows that this is a property of the program and not of the database layer: the same calls in another order would break it. A starting file is accounted for if it is new, or was left by any run of C110_accounted.
* **C111 Unrelated lines can be entered in any order** (proved). The reply to a line and the memory after it are functions of the memory before it (C95's pure evaluation, and: evaluation brings only variables that occur in the expression into memory, by induction on derivations). Two unrelated lines commute; induction on the permutation, and a refinement between dialogues and these functions in both directions. Theorems: `C111_any_order`, `C111_at_hand`. Stated with the dialogue of C69: each line is typed into the waiting session and submitted. What is on disk may differ between the orders (which line a variable goes with, and so what is dropped later) and is not claimed; C111_at_hand gives the two cases in which every variable used is at hand. The example also shows two related lines whose replies depend on the order.
* **C112 How far an answer is from what was asked for** (proved). From C68 (the text shows the nearest representable number): the candidate floor(v*R^p + 1/2)/R^p is within half a unit, so the nearest is; representable numbers with p digits are representable with more; nearest, fraction in lowest terms and grouping commute with negation, and the text is unique for its value. The opposite line is evaluated by C100's formula lemma. Theorems: `C112_half_a_unit`, `C112_same_answer`, `C112_more_digits`, `C112_opposite`. Stated for typed lines, with the value of a line given by the evaluation relation of C14 (SpecAccuracy.line_value) and the number a text shows by SpecReentry.shows (commas taken out). Roots are included in that the value is what the rules of C19-C21 make it; how far that is from the real root is C21. C112_more_digits compares answers for lines whose value is the same under both precisions.
