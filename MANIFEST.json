{
 "claims": [
  {
   "property": "C01",
   "status": "proved",
   "theorems": [
    "C01_tokenize_iff_reading",
    "C01_reading_unique"
   ],
   "note": ""
  },
  {
   "property": "C02",
   "status": "proved",
   "theorems": [
    "C02_positions"
   ],
   "note": ""
  },
  {
   "property": "C03",
   "status": "proved",
   "theorems": [
    "C03_literal_value",
    "C03_number_tokens"
   ],
   "note": ""
  },
  {
   "property": "C04",
   "status": "proved",
   "theorems": [
    "C04_reply",
    "C04_lex_errors",
    "C04_no_crash"
   ],
   "note": ""
  },
  {
   "property": "C05",
   "status": "proved",
   "theorems": [
    "C05_whitespace_and_separators",
    "C05_applies"
   ],
   "note": ""
  },
  {
   "property": "C06",
   "status": "proved",
   "theorems": [
    "C06_commands",
    "C06_every_slash_line"
   ],
   "note": ""
  },
  {
   "property": "C07",
   "status": "proved",
   "theorems": [
    "C07_int_list",
    "C07_no_crash",
    "C07_in_range"
   ],
   "note": ""
  },
  {
   "property": "C08",
   "status": "proved",
   "theorems": [
    "C08_variable_list",
    "C08_no_crash"
   ],
   "note": ""
  },
  {
   "property": "C09",
   "status": "proved",
   "theorems": [
    "C09_parse_iff_grammar",
    "C09_grammar_unambiguous"
   ],
   "note": ""
  },
  {
   "property": "C10",
   "status": "proved",
   "theorems": [
    "C10_parser_total"
   ],
   "note": ""
  },
  {
   "property": "C11",
   "status": "proved",
   "theorems": [
    "C11_assignment",
    "C11_no_assignment",
    "C11_misplaced_assign"
   ],
   "note": ""
  },
  {
   "property": "C12",
   "status": "proved",
   "theorems": [
    "C12_node_spans",
    "C12_error_in_line"
   ],
   "note": ""
  },
  {
   "property": "C13",
   "status": "proved",
   "theorems": [
    "C13_parentheses_group",
    "C13_every_line"
   ],
   "note": ""
  },
  {
   "property": "C14",
   "status": "proved",
   "theorems": [
    "C14_literals",
    "C14_exact_value",
    "C14_exact_value_any_precision",
    "C14_sound",
    "C14_meaning_unique"
   ],
   "note": ""
  },
  {
   "property": "C15",
   "status": "proved",
   "theorems": [
    "C15_division",
    "C15_first_error",
    "C15_error_origin"
   ],
   "note": ""
  },
  {
   "property": "C16",
   "status": "partial",
   "theorems": [
    "C16_modulus_partial",
    "C16_remainder_unique",
    "C16_zero_crashes",
    "C16_modulus_by_zero_refuted"
   ],
   "note": "Proved for every nonzero divisor. REFUTED for divisor 0: the code panics (num-rational division by zero) instead of reporting an error; C16_zero_crashes shows this for every dividend, C16_modulus_by_zero_refuted is the witness `1 % 0`."
  },
  {
   "property": "C17",
   "status": "proved",
   "theorems": [
    "C17_max_min",
    "C17_no_arguments"
   ],
   "note": ""
  },
  {
   "property": "C18",
   "status": "partial",
   "theorems": [
    "C18_crash_sites_partial",
    "C18_crashing_powers",
    "C18_no_crash_refuted"
   ],
   "note": "REFUTED as stated: `1 % 0`, `0^(-1)` and `sqrt 0.5` panic. C18_crash_sites_partial proves these three shapes (modulus by zero, zero to a negative power, root of a radicand strictly between -1 and 1) are the only crashes; C18_crashing_powers proves that they always crash."
  },
  {
   "property": "C19",
   "status": "proved",
   "theorems": [
    "C19_integer_powers",
    "C19_every_precision"
   ],
   "note": ""
  },
  {
   "property": "C20",
   "status": "proved",
   "theorems": [
    "C20_exact_roots",
    "C20_exact_sqrt"
   ],
   "note": ""
  },
  {
   "property": "C21",
   "status": "partial",
   "theorems": [
    "C21_root_accuracy_partial",
    "C21_sqrt_accuracy",
    "C21_accuracy_refuted"
   ],
   "note": "C21_root_accuracy_partial: the returned d-th root v is on the far side of the true root and at most (d-1) units away, and at most one unit whenever 2*d units <= 1; C21_sqrt_accuracy proves the claimed bound for every square root. REFUTED in general (C21_accuracy_refuted: radix 2, precision 0, 6th root of (3/2)^6 is off by more than one unit)."
  },
  {
   "property": "C22",
   "status": "proved",
   "theorems": [
    "C22_roots_terminate",
    "C22_powers_crash_only_themselves"
   ],
   "note": ""
  },
  {
   "property": "C23",
   "status": "proved",
   "theorems": [
    "C23_imaginary_iff",
    "C23_sqrt",
    "C23_error_origin"
   ],
   "note": ""
  },
  {
   "property": "C24",
   "status": "partial",
   "theorems": [
    "C24_usable_precision_partial",
    "C24_precision_255_refuted"
   ],
   "note": "Proved for every pair with precision+extra <= 254. REFUTED for sum 255 (accepted by /precision): precision+1 overflows u8, a panic in debug builds and zero digits in release builds."
  },
  {
   "property": "C25",
   "status": "proved",
   "theorems": [
    "C25_recording_keeps_variables",
    "C25_only_the_assigned_variable",
    "C25_failed_line_assigns_nothing",
    "C25_unreadable_line_changes_nothing"
   ],
   "note": ""
  },
  {
   "property": "C26",
   "status": "proved",
   "theorems": [
    "C26_line_output",
    "C26_exact_output"
   ],
   "note": ""
  },
  {
   "property": "C27",
   "status": "proved",
   "theorems": [
    "C27_rounded_output"
   ],
   "note": ""
  },
  {
   "property": "C28",
   "status": "proved",
   "theorems": [
    "C28_reads_back"
   ],
   "note": ""
  },
  {
   "property": "C29",
   "status": "proved",
   "theorems": [
    "C29_commas"
   ],
   "note": ""
  },
  {
   "property": "C30",
   "status": "proved",
   "theorems": [
    "C30_digits_and_sign"
   ],
   "note": ""
  },
  {
   "property": "C31",
   "status": "partial",
   "theorems": [
    "C31_radix_prints_partial",
    "C31_radix_one_crashes",
    "C31_radix_one_refuted"
   ],
   "note": "Proved for every output radix 2..16. REFUTED for --convert-to-radix 1, which the command line accepts (clap range 1..17): every decimal result then panics."
  },
  {
   "property": "C32",
   "status": "partial",
   "theorems": [
    "C32_fraction_text_partial",
    "C32_output_radix_refuted"
   ],
   "note": "Proved for the decimal text (always radix 10). REFUTED for the output radix: fractional output ignores the radix settings (17 is printed as \"17\" in radix 16)."
  },
  {
   "property": "C33",
   "status": "proved",
   "theorems": [
    "C33_assignment_remembered",
    "C33_remembered_until_changed",
    "C33_use_gives_the_value"
   ],
   "note": ""
  },
  {
   "property": "C34",
   "status": "proved",
   "theorems": [
    "C34_values_survive_exactly",
    "C34_saved_value_is_there"
   ],
   "note": ""
  },
  {
   "property": "C35",
   "status": "proved",
   "theorems": [
    "C35_purge",
    "C35_reload"
   ],
   "note": ""
  },
  {
   "property": "C36",
   "status": "partial",
   "theorems": [
    "C36_save_failure_keeps_the_assignment_partial",
    "C36_reply_tells_whether_saved_partial",
    "C36_refuted"
   ],
   "note": "REFUTED as stated: a database failure while recording the line (before evaluation) aborts the assignment, so memory does not get the value. The partial theorems prove that a failure of the save itself keeps the value in memory and is reported in the reply."
  },
  {
   "property": "C37",
   "status": "proved",
   "theorems": [
    "C37_line_moves_what_it_mentions",
    "C37_owner_is_stored",
    "C37_removed_exactly_by_eviction",
    "C37_use_moves",
    "C37_set_stores",
    "C37_purge_removes"
   ],
   "note": ""
  },
  {
   "property": "C38",
   "status": "proved",
   "theorems": [
    "C38_always_well_formed",
    "C38_open_well_formed"
   ],
   "note": ""
  },
  {
   "property": "C39",
   "status": "proved",
   "theorems": [
    "C39_never_exceeds_capacity",
    "C39_reported_capacity"
   ],
   "note": ""
  },
  {
   "property": "C40",
   "status": "proved",
   "theorems": [
    "C40_store_appends",
    "C40_resize_keeps_newest",
    "C40_nothing_else_changes_history",
    "C40_behaves_like_the_specification"
   ],
   "note": ""
  },
  {
   "property": "C41",
   "status": "proved",
   "theorems": [
    "C41_identifiers_increase"
   ],
   "note": ""
  },
  {
   "property": "C42",
   "status": "proved",
   "theorems": [
    "C42_scrollback_is_stable"
   ],
   "note": ""
  },
  {
   "property": "C43",
   "status": "proved",
   "theorems": [
    "C43_all_or_nothing",
    "C43_crash_leaves_well_formed"
   ],
   "note": ""
  },
  {
   "property": "C44",
   "status": "proved",
   "theorems": [
    "C44_bookkeeping_never_fails",
    "C44_only_expected_failures"
   ],
   "note": ""
  },
  {
   "property": "C45",
   "status": "proved",
   "theorems": [
    "C45_open_preserves",
    "C45_reopen_is_identity",
    "C45_newer_is_refused"
   ],
   "note": ""
  },
  {
   "property": "C46",
   "status": "proved",
   "theorems": [
    "C46_scrollback_is_total"
   ],
   "note": ""
  },
  {
   "property": "C47",
   "status": "proved",
   "theorems": [
    "C47_edits_persist",
    "C47_edits_leave_the_record",
    "C47_submit_discards_edits"
   ],
   "note": ""
  },
  {
   "property": "C48",
   "status": "proved",
   "theorems": [
    "C48_up",
    "C48_gives_up_only_at_the_end",
    "C48_down",
    "C48_up_then_down",
    "C48_down_then_up",
    "C48_position_shows_record"
   ],
   "note": ""
  },
  {
   "property": "C49",
   "status": "proved",
   "theorems": [
    "C49_cursor_inside"
   ],
   "note": ""
  },
  {
   "property": "C50",
   "status": "proved",
   "theorems": [
    "C50_typing",
    "C50_backspace",
    "C50_delete",
    "C50_nothing_to_delete",
    "C50_movement",
    "C50_other_keys_keep_the_line",
    "C50_recall_puts_cursor_at_end"
   ],
   "note": ""
  },
  {
   "property": "C51",
   "status": "proved",
   "theorems": [
    "C51_jump_finds_the_partner",
    "C51_jump_returns",
    "C51_partner_is_unique",
    "C51_keys_jump"
   ],
   "note": ""
  },
  {
   "property": "C52",
   "status": "partial",
   "theorems": [
    "C52_scrolling_display_partial",
    "C52_scrolling_display_refuted",
    "C52_scrolling_display_never_crashes"
   ],
   "note": "Proved for every width from 6 columns on (and no width crashes). REFUTED for 5 columns, which the program accepts: the window is one cell and the cursor can land on the right-hand mark (C52_scrolling_display_refuted)."
  },
  {
   "property": "C53",
   "status": "partial",
   "theorems": [
    "C53_wrapped_display_partial",
    "C53_wrapped_display_refuted",
    "C53_narrow_is_reported"
   ],
   "note": "Proved for every width from 3 columns on (line without newline characters, cursor row below 65536). REFUTED for 2 columns in the alternate screen: the program accepts the width and divides by zero (C53_wrapped_display_refuted is a whole-program witness)."
  },
  {
   "property": "C54",
   "status": "proved",
   "theorems": [
    "C54_radixes_stay_valid",
    "C54_interactive"
   ],
   "note": ""
  },
  {
   "property": "C55",
   "status": "proved",
   "theorems": [
    "C55_exact_effect",
    "C55_effect_unique",
    "C55_nothing_else_changes_settings"
   ],
   "note": ""
  },
  {
   "property": "C56",
   "status": "proved",
   "theorems": [
    "C56_precision_command",
    "C56_preserved",
    "C56_interactive"
   ],
   "note": ""
  },
  {
   "property": "C57",
   "status": "proved",
   "theorems": [
    "C57_table",
    "C57_help_list",
    "C57_help_topic"
   ],
   "note": ""
  },
  {
   "property": "C58",
   "status": "proved",
   "theorems": [
    "C58_recorded_in_session",
    "C58_recorded_on_disk",
    "C58_enter_submits_the_shown_line"
   ],
   "note": ""
  },
  {
   "property": "C59",
   "status": "proved",
   "theorems": [
    "C59_keeps_nothing",
    "C59_same_text_same_answer",
    "C59_variables_are_errors",
    "C59_no_database_failure"
   ],
   "note": ""
  },
  {
   "property": "C60",
   "status": "proved",
   "theorems": [
    "C60_expressions_keep_settings",
    "C60_commands_keep_variables"
   ],
   "note": ""
  },
  {
   "property": "C61",
   "status": "proved",
   "theorems": [
    "C61_exit_keys",
    "C61_runs_end_by_exit_key",
    "C61_exit_changes_nothing"
   ],
   "note": ""
  },
  {
   "property": "C62",
   "status": "proved",
   "theorems": [
    "C62_span",
    "C62_between",
    "C62_trim"
   ],
   "note": ""
  },
  {
   "property": "C63",
   "status": "proved",
   "theorems": [
    "C63_evicted_input_fails_cleanly",
    "C63_stored_input_saves",
    "C63_line_reports_and_assigns"
   ],
   "note": ""
  },
  {
   "property": "C64",
   "status": "proved",
   "theorems": [
    "C64_interactive_state_stays_good"
   ],
   "note": ""
  },
  {
   "property": "C65",
   "status": "proved",
   "theorems": [
    "C65_reply",
    "C65_exact_reply"
   ],
   "note": ""
  },
  {
   "property": "C66",
   "status": "proved",
   "theorems": [
    "C66_enter_prints_the_reply",
    "C66_every_reply_has_one_text",
    "C66_rows_unique"
   ],
   "note": ""
  },
  {
   "property": "C67",
   "status": "proved",
   "theorems": [
    "C67_no_runtime_errors",
    "C67_interactive_session_works"
   ],
   "note": ""
  },
  {
   "property": "C68",
   "status": "proved",
   "theorems": [
    "C68_answer_is_the_value_in_the_chosen_format",
    "C68_exact_answer",
    "C68_text_determined"
   ],
   "note": ""
  },
  {
   "property": "C69",
   "status": "proved",
   "theorems": [
    "C69_typing_composes_the_line",
    "C69_transcript",
    "C69_dialogue_unless_crash"
   ],
   "note": ""
  },
  {
   "property": "C70",
   "status": "proved",
   "theorems": [
    "C70_complaints",
    "C70_one_complaint"
   ],
   "note": "Finding: a word that is no number in an integer list is reported as 'Invalid variable name' (src/token.rs:374-391), and positions of argument faults are counted from the beginning of the argument text, not of the line; the specification states what the program does."
  },
  {
   "property": "C71",
   "status": "proved",
   "theorems": [
    "C71_histcap",
    "C71_purgevar",
    "C71_reloadvar",
    "C71_without_database"
   ],
   "note": "Stated for a working database (no SQLite failure from outside); the row order of /reloadvar is the hash-set order, left arbitrary."
  },
  {
   "property": "C72",
   "status": "proved",
   "theorems": [
    "C72_line",
    "C72_complaint_true",
    "C72_faulty_iff_no_tree"
   ],
   "note": ""
  },
  {
   "property": "C73",
   "status": "partial",
   "theorems": [
    "C73_terminal_given_back_partial",
    "C73_held_while_running",
    "C73_one_shot_leaves_the_terminal",
    "C73_refuted"
   ],
   "note": "Finding: a crash (for example the division by zero of C18) unwinds past the code that restores the terminal (src/main.rs:128-135), which stays in raw mode and on the alternate screen: C73_refuted. Proved for every other end. Failures of terminal reads and writes inside the session: C80."
  },
  {
   "property": "C74",
   "status": "proved",
   "theorems": [
    "C74_everything_is_on_disk",
    "C74_answers_survive_a_restart",
    "C74_up_brings_back_the_stored_lines",
    "C74_opens"
   ],
   "note": "For inline mode and exactly determined values (power_exact); the history must have room, which the statement says."
  },
  {
   "property": "C75",
   "status": "proved",
   "theorems": [
    "C75_one_shot_run",
    "C75_one_shot_answer"
   ],
   "note": "What the Rust runtime itself prints for a panic is not part of out_stderr."
  },
  {
   "property": "C76",
   "status": "proved",
   "theorems": [
    "C76_every_run_leaves_a_program_file",
    "C76_untouched",
    "C76_open_failures_are_reported",
    "C76_newer_file_is_left_alone"
   ],
   "note": ""
  },
  {
   "property": "C77",
   "status": "proved",
   "theorems": [
    "C77_status_zero_by_exit_key",
    "C77_leaving_changes_nothing",
    "C77_the_end_is_the_end",
    "C77_errors_in_working_surroundings"
   ],
   "note": ""
  },
  {
   "property": "C78",
   "status": "proved",
   "theorems": [
    "C78_any_inline_session",
    "C78_transcript",
    "C78_folding_determined",
    "C78_folding_exists",
    "C78_terminal_keeps_its_size"
   ],
   "note": "No newline characters in stored lines (none can be typed with the keys the theorem allows). Resizes are excluded: what a terminal does to its rows when resized differs between terminals."
  },
  {
   "property": "C79",
   "status": "partial",
   "theorems": [
    "C79_any_session_partial",
    "C79_dialogue_partial",
    "C79_live_sessions_are_sessions",
    "C79_told_determined",
    "C79_refuted"
   ],
   "note": "Finding: the alternate-screen code ends rows with MoveToNextLine (CSI E), which does not scroll: once the rows are used up, the next answer is written over and erased (C79_refuted: 3 rows, `1` then `2+5`: neither the line nor its answer 7 is anywhere; src/main.rs:176-231, 495-507). Proved for every session, and every typed dialogue, that fits on the screen; the terminal answers the program's questions from what it shows, and such a session is an instance of the sessions of all other properties (C79_live_sessions_are_sessions)."
  },
  {
   "property": "C80",
   "status": "proved",
   "theorems": [
    "C80_failure_is_a_clean_end",
    "C80_sound_terminal",
    "C80_no_failure_ignored",
    "C80_file_sound",
    "C80_at_most_the_last_line_is_lost",
    "C80_one_shot"
   ],
   "note": "The uses of the terminal are modelled in the order of the code (Io.v); the display is computed before its first command is written."
  },
  {
   "property": "C81",
   "status": "proved",
   "theorems": [
    "C81_file_sound",
    "C81_sessions_work",
    "C81_only_display_failures",
    "C81_what_is_submitted",
    "C81_one_history",
    "C81_assignments_are_shared",
    "C81_without_database"
   ],
   "note": "Programs alternate event by event; interleavings of the single database calls are the subject of C42, C44, C63 (Sessions.v). A program that remembers an older value keeps it until reloadvar (shown in the example)."
  },
  {
   "property": "C82",
   "status": "proved",
   "theorems": [
    "C82_killed_at_any_moment",
    "C82_at_most_the_last_line",
    "C82_other_events_leave_the_file",
    "C82_nothing_after_a_failure",
    "C82_opening",
    "C82_next_run"
   ],
   "note": "A kill falls between two database calls (inside one, SQLite's atomicity decides for before or after, as in C43). It is modelled as failure of the next call; C82_nothing_after_a_failure justifies that: after a failing call an event makes no further one."
  },
  {
   "property": "C83",
   "status": "partial",
   "theorems": [
    "C83_same_outcome",
    "C83_same_display_partial",
    "C83_same_line",
    "C83_same_one_shot",
    "C83_refuted"
   ],
   "note": "Finding: /reloadvar with two or more variables collects them in a HashSet (src/commands.rs:265-289) and prints its rows in that set's random order: C83_refuted shows two runs of the same keys printing the rows the other way round. Proved: file, streams, modes and ending never depend on the order, the commands sent are the same up to order (C83_same_outcome), and exactly the same if no submitted line is such a /reloadvar (C83_same_display_partial). For databases made by the program whose calls do not fail from outside."
  },
  {
   "property": "C84",
   "status": "proved",
   "theorems": [
    "C84_inline",
    "C84_inline_nothing_else",
    "C84_inline_enter",
    "C84_alternate",
    "C84_alternate_nothing_else"
   ],
   "note": "After a resize the terminal's contents, height and cursor row are arbitrary (SpecResize.resized_run), so the statement covers every way terminals treat their contents. The terminal's own size and the width in the resize event agree. Texts with a newline character (typable as a control key only) are excluded as in C78."
  },
  {
   "property": "C85",
   "status": "proved",
   "theorems": [
    "C85_settings",
    "C85_nothing_else",
    "C85_one_meaning",
    "C85_order",
    "C85_refused",
    "C85_help",
    "C85_in_range",
    "C85_every_combination",
    "C85_process"
   ],
   "note": "clap 4.0.29 is not in /repo: CommandLine.v transcribes its documented rules for the derive attributes in src/main.rs:44-94. The texts of help, version and errors are not modelled; words are Unicode."
  },
  {
   "property": "C86",
   "status": "partial",
   "theorems": [
    "C86_one_shot_partial",
    "C86_refuted"
   ],
   "note": "Finding: an expression that begins with a minus sign, such as -5+3, is refused as a word after -i or --input (clap takes it for an option; the field lacks allow_hyphen_values): C86_refuted. Proved for --input=EXPRESSION without restriction, and for the other two if the expression does not begin with a minus sign."
  },
  {
   "property": "C87",
   "status": "proved",
   "theorems": [
    "C87_recalled",
    "C87_up",
    "C87_all"
   ],
   "note": "The whole-program form of C42, over the desks of Together.v; programs alternate event by event."
  },
  {
   "property": "C88",
   "status": "proved",
   "theorems": [
    "C88_file_sound",
    "C88_uninterrupted",
    "C88_covers_events"
   ],
   "note": "Interleave.v turns the processing of a line into a sequence of database calls; the theorem C88_uninterrupted relates it to calculate (C58 on)."
  },
  {
   "property": "C89",
   "status": "proved",
   "theorems": [
    "C89_answer",
    "C89_not_one_moment"
   ],
   "note": "C89_not_one_moment shows that the per-variable form is the strongest: no snapshot is taken."
  },
  {
   "property": "C90",
   "status": "proved",
   "theorems": [
    "C90_history",
    "C90_recorded_once"
   ],
   "note": "What counts as a recording is the program's own call to add its line to the history."
  },
  {
   "property": "C91",
   "status": "partial",
   "theorems": [
    "C91_refuted",
    "C91_only_evicted_partial",
    "C91_room_partial",
    "C91_never_stopped"
   ],
   "note": "FINDING: calculate records the line and later stores variables under that record without a transaction around both (src/main.rs:514-588); with a full history another program's line can evict the record in between, and the assignment fails with 'Runtime Error' (C91_refuted). Missing from the partial theorems: exactly those runs. C91_only_evicted_partial says it is the only cause; C91_room_partial gives a condition that excludes it."
  },
  {
   "property": "C92",
   "status": "proved",
   "theorems": [
    "C92_reloadvar",
    "C92_purgevar",
    "C92_histcap",
    "C92_other_lines"
   ],
   "note": "A program killed in the middle of a line is one that never takes another turn, so C88-C93 cover kills at any database call of any of the programs."
  },
  {
   "property": "C93",
   "status": "proved",
   "theorems": [
    "C93_line_turns",
    "C93_other_turns"
   ],
   "note": "own_turn is stated on the rows of the file (inputs, capacity, saved variables with their owner), not on the calls."
  },
  {
   "property": "C94",
   "status": "proved",
   "theorems": [
    "C94_replace",
    "C94_assigned"
   ],
   "note": "comes_to uses the model's evaluator: the value of an approximated root is one particular fraction, which the rules of arithmetic (C16, C17) only bound, and replacing needs exactly that fraction."
  },
  {
   "property": "C95",
   "status": "proved",
   "theorems": [
    "C95_reply_depends_only_on"
   ],
   "note": "The mentioned variables must agree also in whether there is a store at all (one-shot mode has none)."
  },
  {
   "property": "C96",
   "status": "proved",
   "theorems": [
    "C96_one_shot_agrees"
   ],
   "note": "With variables the one-shot mode always complains (C59)."
  },
  {
   "property": "C97",
   "status": "proved",
   "theorems": [
    "C97_every_setting_can_be_reached"
   ],
   "note": "The choice of the alternate screen cannot be changed by a command (C55), so it is the same before and after."
  },
  {
   "property": "C98",
   "status": "proved",
   "theorems": [
    "C98_answer_entered_again",
    "C98_stable",
    "C98_fraction_entered_again",
    "C98_order_is_kept",
    "C98_shows_one_number"
   ],
   "note": "With commas the answer is not a line (C98_example): a comma separates arguments. In fractional output with another input radix the decimal text would be read in that radix (C32_output_radix_refuted)."
  },
  {
   "property": "C99",
   "status": "partial",
   "theorems": [
    "C99_get_variable",
    "C99_one_reading",
    "C99_no_other_call_crashes",
    "C99_session",
    "C99_reply",
    "C99_crash_sites_partial",
    "C99_stays_consistent",
    "C99_takes_lines",
    "C99_crash_refuted"
   ],
   "note": "The last sentence is refuted by C99_crash_refuted: a row whose denominator is zero makes the program divide by zero when the variable is used or named in /reloadvar. C99_crash_sites_partial shows that this, and the crashes of C18, are the only ones (with precision settings whose sum fits, C24)."
  },
  {
   "property": "C100",
   "status": "proved",
   "theorems": [
    "C100_interchange",
    "C100_identities",
    "C100_laws"
   ],
   "note": "Laws with powers assume that the precision sum fits (digits_kept is defined), as in C24: otherwise a debug build crashes on any power."
  },
  {
   "property": "C101",
   "status": "proved",
   "theorems": [
    "C101_same_reply",
    "C101_rewritten"
   ],
   "note": "Roots that are approximated are kept to a number of digits of the input radix, so they do depend on it (C101_roots_depend_on_radix); precision settings whose sum crashes a debug build are excluded as in C24."
  },
  {
   "property": "C102",
   "status": "proved",
   "theorems": [
    "C102_rounds",
    "C102_sqrt",
    "C102_rounds_unique"
   ],
   "note": "Rounds are counted, not time: the numbers in the rounds grow. The bound on Newton's rounds uses linear convergence (each d rounds halve the distance), so it is not tight."
  },
  {
   "property": "C103",
   "status": "proved",
   "theorems": [
    "C103_value",
    "C103_answer",
    "C103_powers_grow"
   ],
   "note": "Powers are excluded because they do make numbers long (C103_powers_grow). Intermediate results obey the same bound, since every part of a line is such an expression (C103_value holds for the tokens of any derivation)."
  },
  {
   "property": "C104",
   "status": "proved",
   "theorems": [
    "C104_few_calls",
    "C104_calls"
   ],
   "note": "A database operation is one transaction or statement of src/saved_data.rs; waiting for the file lock inside one operation (SQLite busy timeout) is not modelled, a lock that is not obtained is a fault."
  },
  {
   "property": "C105",
   "status": "proved",
   "theorems": [
    "C105_line",
    "C105_stopped"
   ],
   "note": "C105_line is for a line of a program that uses the database; C67 covers the others (they have no runtime errors at all). SQLite's own error texts are one placeholder: SqliteError for a refusal, SqliteConstraint for a violated constraint (the code does not distinguish them)."
  },
  {
   "property": "C106",
   "status": "proved",
   "theorems": [
    "C106_kept",
    "C106_origin"
   ],
   "note": "C33 is the same for one session whose lines run in one piece; here the other programs move between any two database calls of a line. What the value of a remembered variable is when it was read from the file is C89's."
  },
  {
   "property": "C107",
   "status": "proved",
   "theorems": [
    "C107_gives_up",
    "C107_must",
    "C107_quiet",
    "C107_newer"
   ],
   "note": "Messages of errors that are not the program's own (io::Error, VarError, rusqlite's) are a parameter, as is the text of a panic. That an alternate-screen window of exactly two columns crashes is C53's refutation. Failures of the terminal in the middle of a session are C80's."
  },
  {
   "property": "C108",
   "status": "proved",
   "theorems": [
    "C108_builds_agree",
    "C108_where_they_part",
    "C108_one_shot",
    "C108_line",
    "C108_process",
    "C108_no_worse",
    "C108_parting_is_real"
   ],
   "note": "Only overflow checks distinguish the builds: the program has no cfg(debug_assertions) or debug_assert. That the unsigned subtractions of the editor cannot underflow in either build is C49 to C53's; the model panics there in both. The text of a panic and the symbols of the executable are not modelled."
  },
  {
   "property": "C109",
   "status": "proved",
   "theorems": [
    "C109_session",
    "C109_same_lines",
    "C109_file",
    "C109_said",
    "C109_same_replies"
   ],
   "note": "Up reads the file, so with a SQLite that refuses calls at will the ways of typing can differ in which call is refused; hence the hypothesis that it refuses none. The hash-set orders at the n-th line are the same in both sessions. The alternate-screen option is the same in both, because it is one of the settings compared."
  },
  {
   "property": "C110",
   "status": "proved",
   "theorems": [
    "C110_accounted",
    "C110_name_in_a_line",
    "C110_few_variables"
   ],
   "note": "C110_not_the_tables shows that this is a property of the program and not of the database layer: the same calls in another order would break it. A starting file is accounted for if it is new, or was left by any run of C110_accounted."
  },
  {
   "property": "C111",
   "status": "proved",
   "theorems": [
    "C111_any_order",
    "C111_at_hand"
   ],
   "note": "Stated with the dialogue of C69: each line is typed into the waiting session and submitted. What is on disk may differ between the orders (which line a variable goes with, and so what is dropped later) and is not claimed; C111_at_hand gives the two cases in which every variable used is at hand. The example also shows two related lines whose replies depend on the order."
  },
  {
   "property": "C112",
   "status": "proved",
   "theorems": [
    "C112_half_a_unit",
    "C112_same_answer",
    "C112_more_digits",
    "C112_opposite"
   ],
   "note": "Stated for typed lines, with the value of a line given by the evaluation relation of C14 (SpecAccuracy.line_value) and the number a text shows by SpecReentry.shows (commas taken out). Roots are included in that the value is what the rules of C19-C21 make it; how far that is from the real root is C21. C112_more_digits compares answers for lines whose value is the same under both precisions."
  }
 ]
}