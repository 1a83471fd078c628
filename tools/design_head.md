# Formal model of bytesized/bcalc in Rocq (Coq 8.16.1)

(Sections 1-4 are written by hand in tools/design_head.md; section 5 is generated by
tools/gen_design.py from properties.jsonl, MANIFEST.json and tools/design_methods.json.)

## 1. What is modelled

The whole program logic, function by function, as total computable Gallina functions:

| Rust file | Coq model | contents |
|---|---|---|
| std / num contracts | `Base.v`, `Num.v` | chars and strings as `list N`, `outcome` (Ok / Err / Panic), `BigInt::{parse_bytes,to_str_radix}`, `BigRational` arithmetic |
| `position.rs` | `Position.v` | `from_span`, `from_between`, `trim`, positioned values |
| `error.rs` | `Errors.v` | all error enums and their `Display` texts |
| `token.rs` | `TokenTypes.v`, `Token.v` | token enums; `tokenize`, command extraction, list tokenizers |
| `operations.rs` | `Operations.v` | `make_decimal_string`, `exponentiate` (bisection and Newton) |
| `syntax_tree.rs` | `SyntaxTree.v` | parser, node positions, `execute`; the settings record `args` |
| `saved_data.rs` | `SavedData.v` | table-level model of the SQLite file with foreign keys, every API call, external faults |
| `variable.rs` | `Variables.v` | `VariableStore` |
| `input_history.rs` | `InputHistory.v` | `InputHistory` |
| `commands.rs` | `Commands.v` | the ten commands and the dispatcher |
| `main.rs:514-588` | `Calculate.v` | `calculate`, the one-shot mode |
| `main.rs:149-511` | `Editor.v` | the interactive event loop, both display modes |
| `main.rs:96-142` | `Main.v` | `main`: options, database opening, terminal modes, streams, exit status |
| the value `main` returns, `error.rs` (`derive(Debug)`) | `Report.v` | the standard error |
| `main.rs:44-97` and clap | `CommandLine.v` | the words of the command line, the whole process |
| `main.rs:96-511`, every `?` on the terminal | `Io.v` | the same run with a terminal that can fail at any use |
| the program killed | `Kill.v` | an interactive program killed while it handles an event |
| several processes, event by event | `Together.v` | interactive programs open at once on one file |
| several processes, call by call | `Interleave.v` | the same, interleaved at every database call of a line |
| several processes | `Sessions.v` | sessions sharing one file, any interleaving of API calls |

Panics are explicit values (`Panic why`), state that survives an error is returned next to the
error (`state -> state * outcome`), loops are structural recursion or recursion on explicit fuel whose
exhaustion is a distinguished value (`Panic OutOfFuel`) that theorems prove unreachable.

## 2. Layout of the development

* Specifications, independent of the model's helper functions: `SpecLex` (readings of a line), `SpecGrammar`
  (derivations), `SpecSyntax` (what complaints mean), `SpecEval` (meaning in Q), `SpecPrint` (printed texts),
  `SpecHistory` (abstract store and worlds), `SpecEditor` (sheet, partner parentheses, screen of one line), `SpecCalc` (effect of a line),
  `SpecCommands` / `SpecData` (effect of commands), `SpecSession` (screen, typing, transcript), `SpecMain` (runs),
  `SpecTerminal` (a terminal with a size, sessions on it), `SpecIo` (failing uses of the terminal),
  `SpecTogether` (programs open at once),
  `SpecKill` (half-done lines), `SpecOrder` (runs that differ in iteration order), `SpecResize` (sessions
  on a terminal that is resized), `SpecCommandLine` (settings and the words that write them),
  `SpecScroll` (scrolling back while others use the file),
  `SpecInterleave` (lines whose database calls interleave with those of other programs), `SpecDecimal` (integers
  in decimal), `SpecCompose` (replaced parts of lines), `SpecSettings` (lines that change settings), `SpecReentry` (the number an answer shows), `SpecDamage` (what a row of any content stands for), `SpecLaws` (formulas and the laws of arithmetic), `SpecNotation` (settings that differ in the input radix only), `SpecRounds` (finding a root round by round), `SpecSize` (the number of digits), `SpecCalls` (the database calls of a line), `SpecCause` (when SQLite refuses a call), `SpecMemory` (which lines concern a variable), `SpecReport` (the reasons to give up), `SpecProfile` (where two builds part), `SpecLines` (what the submitted lines come to), `SpecAccount` (what a saved variable goes with), `SpecUnrelated` (lines that have nothing to do with each other), `SpecAccuracy` (the value of a line, a unit of the last place).
* Proofs: `Proofs*.v`.  Property theorems, each with `Print Assumptions` and a concrete example: `Properties*.v`
  (Lex C01-C08, C62; Parse C09-C13; Eval C14-C24; Print C26-C32; Calc C25, C33, C35, C36, C58-C60, C64, C65;
  Db C34, C37-C45, C63; Editor C46-C53, C61; Commands C54-C57; Session C66-C69; Data C37, C70-C72; Main C73-C77;
  Terminal C78, C79; Io C80; Together C81; Kill C82; Order C83; Resize C84; CommandLine C85, C86; Scroll C87; Interleave C88-C91, Interleave2 C92-C93; Compose C94-C96; Reentry C97-C98; Damage C99; Laws C100; Notation C101; Rounds C102; Size C103; Calls C104; Cause C105; Memory C106; Report C107; Profile C108; Lines C109; Account C110; Unrelated C111; Accuracy C112).
* `seeded/LOG.jsonl`: wrong programs (edits of the model) and the theorems that caught them.

## 3. Trusted base

* Coq's kernel (8.16.1), its `vm_compute` for concrete examples and counterexamples. Every property theorem is followed by
  `Print Assumptions`, which answers "Closed under the global context": no axioms, not even the standard
  library's. (Loaded libraries declare some; no theorem uses them.)
* The reading of /repo: each definition cites file and lines; nothing checks it against the Rust code mechanically.
* Contracts assumed of dependencies (no source available here):
  - `num` arithmetic is exact and keeps rationals in lowest terms; `BigInt::from_str_radix` / `to_str_radix` as transcribed in `Num.v`;
  - SQLite executes each transaction atomically, enforces the declared foreign keys and constraints, allocates
    `max(rowid)+1`; a call that fails for outside reasons leaves the file as it was; a statement cannot fail after it has
    committed; rowids stay below 2^63;
  - `HashMap`/`HashSet` are finite maps/sets with arbitrary iteration order (a parameter, quantified in the theorems);
  - crossterm delivers events, reports some cursor position and width for each line (a parameter), and its commands act on
    a screen as `SpecSession.screen_after` says (rows above, the current row, the column; text as long as the width wraps where the
    program breaks the row itself); for C78 on, on a terminal with a size as `SpecTerminal.grid_after` says: one cell per
    character, a character past the last column goes to the next row, a line feed at the bottom scrolls, moving the cursor
    (CSI E of `MoveToNextLine` included) never scrolls;
  - clap 4.0.29 reads the words as `CommandLine.v` says (transcribed from its documented behaviour);
  - Rust `char` is one cell and the lines are ASCII where a theorem says `typable`; `usize` is unbounded except where the code
    converts to `u8`/`u16`/`i32`/`u32`, where overflow is modelled per build profile (`Debug` panics, `Release` wraps).

## 4. Not modelled

the texts of clap's help, version and error messages, arguments that are not Unicode; file-system paths (the file is its content, the
directory a success flag); what the Rust runtime prints for a panic, and the texts of foreign errors (`io::Error`, `VarError`, rusqlite) it prints when `main` returns one; memory and stack exhaustion; time; signals other than a kill (a
kill between database calls is C82; a crash point inside SQLite is covered by atomicity: the file is as before or after the call, C43).

