{
 "C16": {
  "note": "Proved for every nonzero divisor. REFUTED for divisor 0: the code panics (num-rational division by zero) instead of reporting an error; C16_zero_crashes shows this for every dividend, C16_modulus_by_zero_refuted is the witness `1 % 0`."
 },
 "C18": {
  "note": "REFUTED as stated: `1 % 0`, `0^(-1)` and `sqrt 0.5` panic. C18_crash_sites_partial proves these three shapes (modulus by zero, zero to a negative power, root of a radicand strictly between -1 and 1) are the only crashes; C18_crashing_powers proves that they always crash."
 },
 "C21": {
  "note": "C21_root_accuracy_partial: the returned d-th root v is on the far side of the true root and at most (d-1) units away, and at most one unit whenever 2*d units <= 1; C21_sqrt_accuracy proves the claimed bound for every square root. REFUTED in general (C21_accuracy_refuted: radix 2, precision 0, 6th root of (3/2)^6 is off by more than one unit)."
 },
 "C24": {
  "note": "Proved for every pair with precision+extra <= 254. REFUTED for sum 255 (accepted by /precision): precision+1 overflows u8, a panic in debug builds and zero digits in release builds."
 },
 "C31": {
  "note": "Proved for every output radix 2..16. REFUTED for --convert-to-radix 1, which the command line accepts (clap range 1..17): every decimal result then panics."
 },
 "C32": {
  "note": "Proved for the decimal text (always radix 10). REFUTED for the output radix: fractional output ignores the radix settings (17 is printed as \"17\" in radix 16)."
 },
 "C52": {
  "note": "Proved for every width from 6 columns on (and no width crashes). REFUTED for 5 columns, which the program accepts: the window is one cell and the cursor can land on the right-hand mark (C52_scrolling_display_refuted)."
 },
 "C53": {
  "note": "Proved for every width from 3 columns on (line without newline characters, cursor row below 65536). REFUTED for 2 columns in the alternate screen: the program accepts the width and divides by zero (C53_wrapped_display_refuted is a whole-program witness)."
 },
 "C36": {
  "note": "REFUTED as stated: a database failure while recording the line (before evaluation) aborts the assignment, so memory does not get the value. The partial theorems prove that a failure of the save itself keeps the value in memory and is reported in the reply."
 },
 "C70": {
  "note": "Finding: a word that is no number in an integer list is reported as 'Invalid variable name' (src/token.rs:374-391), and positions of argument faults are counted from the beginning of the argument text, not of the line; the specification states what the program does."
 },
 "C71": {
  "note": "Stated for a working database (no SQLite failure from outside); the row order of /reloadvar is the hash-set order, left arbitrary."
 },
 "C73": {
  "note": "Finding: a crash (for example the division by zero of C18) unwinds past the code that restores the terminal (src/main.rs:128-135), which stays in raw mode and on the alternate screen: C73_refuted. Proved for every other end. Failures of terminal reads and writes inside the session: C80."
 },
 "C74": {
  "note": "For inline mode and exactly determined values (power_exact); the history must have room, which the statement says."
 },
 "C75": {
  "note": "What the Rust runtime itself prints for a panic is not part of out_stderr."
 },
 "C78": {
  "note": "No newline characters in stored lines (none can be typed with the keys the theorem allows). Resizes are excluded: what a terminal does to its rows when resized differs between terminals."
 },
 "C79": {
  "note": "Finding: the alternate-screen code ends rows with MoveToNextLine (CSI E), which does not scroll: once the rows are used up, the next answer is written over and erased (C79_refuted: 3 rows, `1` then `2+5`: neither the line nor its answer 7 is anywhere; src/main.rs:176-231, 495-507). Proved for every session, and every typed dialogue, that fits on the screen; the terminal answers the program's questions from what it shows, and such a session is an instance of the sessions of all other properties (C79_live_sessions_are_sessions)."
 },
 "C80": {
  "note": "The uses of the terminal are modelled in the order of the code (Io.v); the display is computed before its first command is written."
 },
 "C81": {
  "note": "Programs alternate event by event; interleavings of the single database calls are the subject of C42, C44, C63 (Sessions.v). A program that remembers an older value keeps it until reloadvar (shown in the example)."
 },
 "C82": {
  "note": "A kill falls between two database calls (inside one, SQLite's atomicity decides for before or after, as in C43). It is modelled as failure of the next call; C82_nothing_after_a_failure justifies that: after a failing call an event makes no further one."
 },
 "C83": {
  "note": "Finding: /reloadvar with two or more variables collects them in a HashSet (src/commands.rs:265-289) and prints its rows in that set's random order: C83_refuted shows two runs of the same keys printing the rows the other way round. Proved: file, streams, modes and ending never depend on the order, the commands sent are the same up to order (C83_same_outcome), and exactly the same if no submitted line is such a /reloadvar (C83_same_display_partial). For databases made by the program whose calls do not fail from outside."
 },
 "C84": {
  "note": "After a resize the terminal's contents, height and cursor row are arbitrary (SpecResize.resized_run), so the statement covers every way terminals treat their contents. The terminal's own size and the width in the resize event agree. Texts with a newline character (typable as a control key only) are excluded as in C78."
 },
 "C85": {
  "note": "clap 4.0.29 is not in /repo: CommandLine.v transcribes its documented rules for the derive attributes in src/main.rs:44-94. The texts of help, version and errors are not modelled; words are Unicode."
 },
 "C86": {
  "note": "Finding: an expression that begins with a minus sign, such as -5+3, is refused as a word after -i or --input (clap takes it for an option; the field lacks allow_hyphen_values): C86_refuted. Proved for --input=EXPRESSION without restriction, and for the other two if the expression does not begin with a minus sign."
 },
 "C87": {
  "note": "The whole-program form of C42, over the desks of Together.v; programs alternate event by event."
 },
 "C88": {
  "note": "Interleave.v turns the processing of a line into a sequence of database calls; the theorem C88_uninterrupted relates it to calculate (C58 on)."
 },
 "C89": {
  "note": "C89_not_one_moment shows that the per-variable form is the strongest: no snapshot is taken."
 },
 "C90": {
  "note": "What counts as a recording is the program's own call to add its line to the history."
 },
 "C91": {
  "note": "FINDING: calculate records the line and later stores variables under that record without a transaction around both (src/main.rs:514-588); with a full history another program's line can evict the record in between, and the assignment fails with 'Runtime Error' (C91_refuted). Missing from the partial theorems: exactly those runs. C91_only_evicted_partial says it is the only cause; C91_room_partial gives a condition that excludes it."
 },
 "C92": {
  "note": "A program killed in the middle of a line is one that never takes another turn, so C88-C93 cover kills at any database call of any of the programs."
 },
 "C93": {
  "note": "own_turn is stated on the rows of the file (inputs, capacity, saved variables with their owner), not on the calls."
 },
 "C94": {
  "note": "comes_to uses the model's evaluator: the value of an approximated root is one particular fraction, which the rules of arithmetic (C16, C17) only bound, and replacing needs exactly that fraction."
 },
 "C95": {
  "note": "The mentioned variables must agree also in whether there is a store at all (one-shot mode has none)."
 },
 "C96": {
  "note": "With variables the one-shot mode always complains (C59)."
 },
 "C97": {
  "note": "The choice of the alternate screen cannot be changed by a command (C55), so it is the same before and after."
 },
 "C98": {
  "note": "With commas the answer is not a line (C98_example): a comma separates arguments. In fractional output with another input radix the decimal text would be read in that radix (C32_output_radix_refuted)."
 },
 "C99": {
  "note": "The last sentence is refuted by C99_crash_refuted: a row whose denominator is zero makes the program divide by zero when the variable is used or named in /reloadvar. C99_crash_sites_partial shows that this, and the crashes of C18, are the only ones (with precision settings whose sum fits, C24)."
 },
 "C100": {
  "note": "Laws with powers assume that the precision sum fits (digits_kept is defined), as in C24: otherwise a debug build crashes on any power."
 },
 "C101": {
  "note": "Roots that are approximated are kept to a number of digits of the input radix, so they do depend on it (C101_roots_depend_on_radix); precision settings whose sum crashes a debug build are excluded as in C24."
 },
 "C102": {
  "note": "Rounds are counted, not time: the numbers in the rounds grow. The bound on Newton's rounds uses linear convergence (each d rounds halve the distance), so it is not tight."
 },
 "C103": {
  "note": "Powers are excluded because they do make numbers long (C103_powers_grow). Intermediate results obey the same bound, since every part of a line is such an expression (C103_value holds for the tokens of any derivation)."
 },
 "C104": {
  "note": "A database operation is one transaction or statement of src/saved_data.rs; waiting for the file lock inside one operation (SQLite busy timeout) is not modelled, a lock that is not obtained is a fault."
 },
 "C105": {
  "note": "C105_line is for a line of a program that uses the database; C67 covers the others (they have no runtime errors at all). SQLite's own error texts are one placeholder: SqliteError for a refusal, SqliteConstraint for a violated constraint (the code does not distinguish them)."
 },
 "C106": {
  "note": "C33 is the same for one session whose lines run in one piece; here the other programs move between any two database calls of a line. What the value of a remembered variable is when it was read from the file is C89's."
 },
 "C107": {
  "note": "Messages of errors that are not the program's own (io::Error, VarError, rusqlite's) are a parameter, as is the text of a panic. That an alternate-screen window of exactly two columns crashes is C53's refutation. Failures of the terminal in the middle of a session are C80's."
 },
 "C108": {
  "note": "Only overflow checks distinguish the builds: the program has no cfg(debug_assertions) or debug_assert. That the unsigned subtractions of the editor cannot underflow in either build is C49 to C53's; the model panics there in both. The text of a panic and the symbols of the executable are not modelled."
 },
 "C109": {
  "note": "Up reads the file, so with a SQLite that refuses calls at will the ways of typing can differ in which call is refused; hence the hypothesis that it refuses none. The hash-set orders at the n-th line are the same in both sessions. The alternate-screen option is the same in both, because it is one of the settings compared."
 },
 "C110": {
  "note": "C110_not_the_tables shows that this is a property of the program and not of the database layer: the same calls in another order would break it. A starting file is accounted for if it is new, or was left by any run of C110_accounted."
 },
 "C111": {
  "note": "Stated with the dialogue of C69: each line is typed into the waiting session and submitted. What is on disk may differ between the orders (which line a variable goes with, and so what is dropped later) and is not claimed; C111_at_hand gives the two cases in which every variable used is at hand. The example also shows two related lines whose replies depend on the order."
 },
 "C112": {
  "note": "Stated for typed lines, with the value of a line given by the evaluation relation of C14 (SpecAccuracy.line_value) and the number a text shows by SpecReentry.shows (commas taken out). Roots are included in that the value is what the rules of C19-C21 make it; how far that is from the real root is C21. C112_more_digits compares answers for lines whose value is the same under both precisions."
 }
}