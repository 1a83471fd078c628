(** PropertiesMain.v -- whole runs of the program, and one run after another: C73-C76. *)
From Verif Require Import Base Position Num TokenTypes Errors Token SavedData Variables InputHistory
  SyntaxTree Commands Calculate Editor Sessions Main SpecGrammar SpecEval SpecPrint SpecHistory SpecEditor SpecCalc SpecCommands SpecSession SpecData SpecMain.
From Verif Require Import ProofsEval ProofsEditor2 ProofsEditor4 ProofsDb4 ProofsDb5 ProofsCalc ProofsCalc4 ProofsCalc7 ProofsCalc8 ProofsCalc9 ProofsCalc10 ProofsCalm ProofsCalm2 ProofsData
  ProofsSession ProofsSession2 ProofsMain ProofsRestart ProofsRestart2 ProofsRestart3 ProofsRestart4 ProofsMain2 ProofsMain3 PropertiesEditor PropertiesCalc PropertiesSession.
From Coq Require Import String Lia.
Local Open Scope nat_scope.
Local Open Scope list_scope.

(** ** C73 *)
(** However a run ends -- the user leaves, the terminal or the database cannot be started, an error ends the
    session -- the terminal is as the run found it: not in raw mode, not on the alternate screen.  This is for every
    end but a crash ([C73_refuted]), and the terminal must obey the two commands.  Missing for the full
    claim: crashes. *)
Theorem C73_terminal_given_back_partial : forall pr ord o m evs, terminal_obeys m ->
  ended (out_ending (main pr ord o m evs)) -> (forall p, out_ending (main pr ord o m evs) <> Panicked p) ->
  out_modes (main pr ord o m evs) = as_found.
Proof. exact given_back. Qed.
Print Assumptions C73_terminal_given_back_partial.
(** While a session runs the terminal is in raw mode, and on the alternate screen exactly if that was asked for;
    one-shot runs never touch it. *)
Theorem C73_held_while_running : forall pr ord o m evs, o_input o = None -> terminal_starts o m ->
  out_ending (main pr ord o m evs) = Running ->
  out_modes (main pr ord o m evs) = mkModes true (a_alternate_screen (o_args o)).
Proof. intros pr ord o m evs I T E. apply held; auto. Qed.
Print Assumptions C73_held_while_running.
Theorem C73_one_shot_leaves_the_terminal : forall pr ord o m evs input, o_input o = Some input ->
  out_modes (main pr ord o m evs) = as_found /\ out_terminal (main pr ord o m evs) = [].
Proof. intros pr ord o m evs input I. rewrite main_unfold, I. destruct (one_shot _ _ _ _); split; reflexivity. Qed.
Print Assumptions C73_one_shot_leaves_the_terminal.
(** A surrounding in which everything works, with a file. *)
Definition machine0 (d : database) : machine := mkMachine RootSet true d [] true true true true term80.
Definition plain : options := mkOptions a0 None false.
(** The full claim is false: the crash of "1%0" (C18) leaves the terminal raw, and on the alternate screen
    if the session was there. *)
Theorem C73_refuted : exists o m evs p, valid_settings (o_args o) /\ terminal_starts o m /\ terminal_obeys m /\ database_works m /\
  out_ending (main Debug (fun _ => order) o m evs) = Panicked p /\ out_modes (main Debug (fun _ => order) o m evs) = mkModes true true.
Proof.
  exists (mkOptions (settings0 true) None false), (machine0 empty_db), (typing_lines [lit "1%0"]). eexists.
  split; [split; [split; discriminate|]; split; [discriminate|]; split; reflexivity|].
  split; [split; reflexivity|]. split; [split; reflexivity|]. split; [intros []|]. split; vm_compute; reflexivity.
Qed.
Print Assumptions C73_refuted.
(** A session left with Control+C, one that could not open its database, one still running. *)
Example C73_example :
  let quit := typing_lines [lit "1+1"] ++ [EvKey (KChar 99%N) CONTROL] in
  let run o m evs := (out_modes (main Debug (fun _ => order) o m evs), out_ending (main Debug (fun _ => order) o m evs)) in
  run plain (machine0 empty_db) quit = (as_found, Succeeded) /\
  run (mkOptions (settings0 true) None false) (machine0 empty_db) quit = (as_found, Succeeded) /\
  run plain (mkMachine RootSet false empty_db [] true true true true term80) quit = (as_found, FailedWith DirectoryFailed) /\
  run plain (mkMachine RootSet true empty_db [true] true true true true term80) quit = (as_found, FailedWith (Runtime SqliteError)) /\
  run plain (machine0 empty_db) (typing_lines [lit "1+1"]) = (mkModes true false, Running).
Proof. vm_compute. repeat split. Qed.

(** ** C74 *)
(** What a session leaves behind, whatever keys were pressed and however it ended or still runs (a crash included): the
    file holds the lines it held, then the submitted ones, and exactly the variables that were usable in the
    session, with their values -- provided the lines fit into the history and none of them is /histcap. *)
Theorem C74_everything_is_on_disk : forall pr ord o m evs d0 sd u cmds st,
  (forall n, iterates (ord n)) -> valid_settings (o_args o) -> made_file (m_file m) -> database_works m ->
  uses_database o m -> terminal_starts o m ->
  sd_open (m_faults m) (m_file m) = (d0, Ok sd) ->
  interactive pr ord the_executor (m_terminal m) (o_args o) (Some sd) evs = (u, cmds, st) ->
  (forall line radix, In line (submitted u) -> ~ is_histcap radix line) ->
  room_for d0 (List.length (submitted u)) ->
  let left := out_file (main pr ord o m evs) in
  texts_of left = texts_of (m_file m) ++ submitted u /\
  forall y v, on_disk left y v <-> var_value (ui_env u) y v.
Proof. exact left_behind. Qed.
Print Assumptions C74_everything_is_on_disk.
(** A later run, with settings of its own, answers an expression as the first session's variables say: the exact
    value or the error is on its screen. *)
Theorem C74_answers_survive_a_restart : forall pr ord o m evs d0 sd u cmds st pr2 ord2 o2 m2 line ts n k res,
  (forall n, iterates (ord n)) -> valid_settings (o_args o) -> made_file (m_file m) -> database_works m ->
  uses_database o m -> terminal_starts o m ->
  sd_open (m_faults m) (m_file m) = (d0, Ok sd) ->
  interactive pr ord the_executor (m_terminal m) (o_args o) (Some sd) evs = (u, cmds, st) ->
  (forall l radix, In l (submitted u) -> ~ is_histcap radix l) ->
  room_for d0 (List.length (submitted u) + 1) ->
  (forall n, iterates (ord2 n)) -> valid_settings (o_args o2) -> m_file m2 = out_file (main pr ord o m evs) -> database_works m2 ->
  uses_database o2 m2 -> terminal_starts o2 m2 -> a_alternate_screen (o_args o2) = false ->
  typable line -> roomy (m_terminal m2) 0 -> roomy (m_terminal m2) (List.length line) ->
  is_expression (a_radix (o_args o2)) line ts -> digits_kept pr2 (o_args o2) = Some k ->
  derives 5 ts n \/ (exists y, assignment ts y n) ->
  meaning (var_result (ui_env u)) power_exact n res ->
  match res with
  | Crashes => True
  | _ => exists text rows, transcript (m_terminal m2) 0 [(line, text)] rows /\
      screen_after (out_terminal (main pr2 ord2 o2 m2 (typing_lines [line]))) blank = mkScreen rows (lit "# ") 2 /\
      match res with Value q => result_text (o_args o2) q text | Fails e => reply_text (Err e) text | Crashes => True end
  end.
Proof. exact two_runs. Qed.
Print Assumptions C74_answers_survive_a_restart.
(** In a new session Up brings the stored lines back, the newest first, and stays at the oldest; the cursor is at
    the end of the line shown, and nothing is written. *)
Theorem C74_up_brings_back_the_stored_lines : forall pr ord m o d0 sd k,
  made_file (m_file m) -> database_works m -> uses_database o m -> terminal_starts o m -> a_alternate_screen (o_args o) = false ->
  sd_open (m_faults m) (m_file m) = (d0, Ok sd) ->
  (forall t, In t (texts_of (m_file m)) -> ~ In c_newline t) -> roomy (m_terminal m) 0 ->
  let stored := texts_of (m_file m) in
  exists u cmds, interactive pr ord the_executor (m_terminal m) (o_args o) (Some sd) (repeat (EvKey KUp 0) k) = (u, cmds, Waiting) /\
    shown (u_inputs u) = Ok (nth (Nat.min k (List.length stored)) ([] :: rev stored) []) /\
    (forall t, shown (u_inputs u) = Ok t -> l_cursor (u_line u) = List.length t) /\
    out_file (main pr ord o m (repeat (EvKey KUp 0) k)) = d0 /\ texts_of d0 = stored.
Proof. exact stored_lines_back. Qed.
Print Assumptions C74_up_brings_back_the_stored_lines.
(** Opening never fails in such surroundings. *)
Theorem C74_opens : forall m, made_file (m_file m) -> database_works m -> exists d0 sd, sd_open (m_faults m) (m_file m) = (d0, Ok sd).
Proof. exact always_opens. Qed.
Print Assumptions C74_opens.
(** First run: "$x = 1/3", "$y = $x * 2", leave.  Second run, other settings: "$x + $y" is 1; Up shows the last line.  A first run
    that crashes leaves as much. *)
Example C74_example :
  let quit := [EvKey (KChar 99%N) CONTROL] in
  let run o d evs := main Debug (fun _ => order) o (machine0 d) evs in
  let d1 := out_file (run plain empty_db (typing_lines [lit "$x = 1/3"; lit "$y = $x * 2"] ++ quit)) in
  let d2 := out_file (run plain empty_db (typing_lines [lit "$x = 1/3"; lit "$y = $x * 2"; lit "1%0"])) in
  let fractions := mkOptions (mkArgs 10 false None 5 3 true false true) None false in
  texts_of d1 = [lit "$x = 1/3"; lit "$y = $x * 2"] /\ texts_of d2 = [lit "$x = 1/3"; lit "$y = $x * 2"; lit "1%0"] /\
  screen_after (out_terminal (run fractions d1 (typing_lines [lit "$x + $y"; lit "$y"]))) blank = mkScreen [lit "# $x + $y"; lit "1"; lit "# $y"; lit "2/3"] (lit "# ") 2 /\
  screen_after (out_terminal (run plain d2 (typing_lines [lit "$x + $y"]))) blank = mkScreen [lit "# $x + $y"; lit "1"] (lit "# ") 2 /\
  screen_after (out_terminal (run plain d1 [EvKey KUp 0])) blank = mkScreen [] (lit "# $y = $x * 2") 13 /\
  screen_after (out_terminal (run plain d1 [EvKey KUp 0; EvKey KUp 0; EvKey KUp 0])) blank = mkScreen [] (lit "# $x = 1/3") 10.
Proof. vm_compute. repeat split. Qed.
(** The hypotheses are met by that first run: the theorems apply to it. *)
Definition lines0 : list str := [lit "$x = 1/3"; lit "$y = $x * 2"].
Lemma no_command_no_histcap input radix : maybe_extract_command input = None -> ~ is_histcap radix input.
Proof. intros N (arguments & n & a & T & _). unfold tokenize in T. rewrite N in T. destruct (find_non_ascii input 0); [discriminate|]. destruct (tokenize_loop _ _ _ _ _); discriminate. Qed.
Example C74_hypotheses : exists d0 sd u cmds st,
  let m := machine0 empty_db in
  (forall n : nat, iterates ((fun _ => order) n)) /\ valid_settings (o_args plain) /\ made_file (m_file m) /\ database_works m /\
  uses_database plain m /\ terminal_starts plain m /\ sd_open (m_faults m) (m_file m) = (d0, Ok sd) /\
  interactive Debug (fun _ => order) the_executor (m_terminal m) (o_args plain) (Some sd) (typing_lines lines0) = (u, cmds, st) /\
  submitted u = lines0 /\ (forall line radix, In line (submitted u) -> ~ is_histcap radix line) /\ room_for d0 (List.length (submitted u) + 1) /\
  roomy (m_terminal m) 20 /\ (exists sd', u_db u = Some sd' /\ texts_of (sd_db sd') = lines0).
Proof.
  do 5 eexists. cbv zeta. split; [intros n; exact order_ok|]. split; [exact a0_ok|]. split; [exists fresh; split; [exists []; split; [intros i f x q id []|reflexivity]|reflexivity]|].
  split; [intros []|]. split; [repeat split|]. split; [split; [reflexivity|discriminate]|]. split; [vm_compute; reflexivity|]. split; [vm_compute; reflexivity|].
  split; [reflexivity|]. split; [|split; [|split]].
  - intros line radix [<-|[<-|[]]]; apply no_command_no_histcap; vm_compute; reflexivity.
  - eexists. split; [reflexivity|]. vm_compute. discriminate.
  - intros k. cbn. unfold fits_u16. vm_compute. repeat split; lia.
  - eexists. split; reflexivity.
Qed.

(** ** C75 *)
(** A one-shot run leaves the database file and the terminal alone whatever its settings, and either prints one
    answer on the standard output, or one complaint beginning with "Error: " on the standard error (both end with status 0),
    or crashes with status 101; it never ends with status 1. *)
Theorem C75_one_shot_run : forall pr ord o m evs input, o_input o = Some input -> valid_settings (o_args o) ->
  let r := main pr ord o m evs in
  out_file r = m_file m /\ out_modes r = as_found /\ out_terminal r = [] /\
  ((exists answer, out_stdout r = answer ++ [c_newline] /\ out_stderr r = [] /\ exit_status (out_ending r) = Some 0%N) \/
   (exists complaint, out_stdout r = [] /\ out_stderr r = lit "Error: " ++ complaint ++ [c_newline] /\ exit_status (out_ending r) = Some 0%N) \/
   (out_stdout r = [] /\ out_stderr r = [] /\ exit_status (out_ending r) = Some 101%N)).
Proof. exact one_shot_run. Qed.
Print Assumptions C75_one_shot_run.
(** The answer printed is the one the language gives: an expression without assignment whose value is determined exactly is
    answered with that value in the chosen format, one with an error by the complaint about it; variables are not available. *)
Theorem C75_one_shot_answer : forall pr ord o m evs input ts n k res, o_input o = Some input -> valid_settings (o_args o) ->
  is_expression (a_radix (o_args o)) input ts -> digits_kept pr (o_args o) = Some k -> derives 5 ts n ->
  meaning (var_result (mkEnv None None)) power_exact n res ->
  let r := main pr ord o m evs in
  match res with
  | Value q => exists text, out_stdout r = text ++ [c_newline] /\ result_text (o_args o) q text
  | Fails e => exists text, out_stderr r = text ++ [c_newline] /\ reply_text (Err e) text
  | Crashes => exit_status (out_ending r) = Some 101%N
  end.
Proof. exact one_shot_answer. Qed.
Print Assumptions C75_one_shot_answer.
Example C75_example :
  let run a input := main Debug (fun _ => order) (mkOptions a (Some input) false) (machine0 (sd_db disk0)) [] in
  let seen r := (out_stdout r, out_stderr r, exit_status (out_ending r)) in
  seen (run a0 (lit "2^10/3")) = (lit "341.33333" ++ [c_newline], [], Some 0%N) /\
  seen (run a0 (lit "2^")) = ([], lit "Error: Exponentiation Operator (^) is missing a required operand" ++ [c_newline], Some 0%N) /\
  seen (run a0 (lit "$x")) = ([], lit "Error: Variable store unavailable" ++ [c_newline], Some 0%N) /\
  seen (run a0 (lit "1%0")) = ([], [], Some 101%N).
Proof. vm_compute. repeat split. Qed.

(** ** C76 *)
(** No run, whatever its options, keys and failures, leaves a file that is not one of the program's own: starting with none or
    with one of them, it can always be opened again with everything in order (C37-C45 speak about such files). *)
Theorem C76_every_run_leaves_a_program_file : forall pr ord o m evs, (forall n, iterates (ord n)) -> valid_settings (o_args o) ->
  made_file (m_file m) -> made_file (out_file (main pr ord o m evs)).
Proof. exact main_file. Qed.
Print Assumptions C76_every_run_leaves_a_program_file.
(** A run that is not to use the database (one-shot, --no-db, no directory configured or usable), that cannot set up the
    terminal, or that cannot open the file, leaves it exactly as it is. *)
Theorem C76_untouched : forall pr ord o m evs, (forall n, iterates (ord n)) -> valid_settings (o_args o) ->
  ~ uses_database o m \/ ~ terminal_starts o m \/ (exists e, sd_open (m_faults m) (m_file m) = (m_file m, Err e)) ->
  out_file (main pr ord o m evs) = m_file m.
Proof. exact main_untouched. Qed.
Print Assumptions C76_untouched.
(** A database that cannot be opened ends the run with an error, before any line is read. *)
Theorem C76_open_failures_are_reported : forall pr ord o m evs, o_input o = None -> terminal_starts o m -> o_no_db o = false ->
  forall e, (m_root m = RootNotUnicode /\ e = BadRoot) \/ (m_root m = RootSet /\ m_directory m = false /\ e = DirectoryFailed) \/
    (uses_database o m /\ exists d e', sd_open (m_faults m) (m_file m) = (d, Err e') /\ e = Runtime e') ->
  out_ending (main pr ord o m evs) = FailedWith e.
Proof. exact main_open_fails. Qed.
Print Assumptions C76_open_failures_are_reported.
(** A file of a newer version in particular: the run ends with status 1, the file and the terminal are as they were. *)
Theorem C76_newer_file_is_left_alone : forall pr ord o m evs v, (forall n, iterates (ord n)) -> valid_settings (o_args o) ->
  uses_database o m -> terminal_starts o m -> terminal_obeys m -> zassoc meta_MinimumVersion (d_meta (m_file m)) = Some v -> (1 < v)%Z ->
  let r := main pr ord o m evs in
  out_file r = m_file m /\ exit_status (out_ending r) = Some 1%N /\ out_modes r = as_found /\ out_terminal r = [].
Proof. exact newer_left. Qed.
Print Assumptions C76_newer_file_is_left_alone.
Example C76_example :
  let run o m evs := main Debug (fun _ => order) o m evs in
  let lines := typing_lines [lit "$x = 5"; lit "/histcap 1"; lit "7"] in
  let newer := mkDb [(meta_MinimumVersion, 2%Z)] [] [] [] in
  texts_of (out_file (run plain (machine0 (sd_db disk0)) lines)) = [lit "7"] /\
  out_file (run (mkOptions a0 None true) (machine0 (sd_db disk0)) lines) = sd_db disk0 /\
  out_file (run plain (machine0 newer) lines) = newer /\
  exit_status (out_ending (run plain (machine0 newer) lines)) = Some 1%N /\
  made_file (sd_db disk0) /\ made_file empty_db.
Proof.
  split; [vm_compute; reflexivity|]. split; [vm_compute; reflexivity|]. split; [vm_compute; reflexivity|]. split; [vm_compute; reflexivity|].
  split; [apply program_made, disk0_file|]. exists fresh. split; [|reflexivity]. exists []. split; [intros i f x q id []|reflexivity].
Qed.

(** ** C77 *)
(** An interactive run ends with status 0 exactly at the first exit key pressed while it was running. *)
Theorem C77_status_zero_by_exit_key : forall pr ord o m evs, o_input o = None ->
  exit_status (out_ending (main pr ord o m evs)) = Some 0%N <->
  exists before ev after, evs = before ++ ev :: after /\ exit_key ev /\ out_ending (main pr ord o m before) = Running.
Proof. exact succeeded_iff. Qed.
Print Assumptions C77_status_zero_by_exit_key.
(** Leaving writes nothing to the file, and to the terminal at most the newline that puts the shell's prompt on a row of its own. *)
Theorem C77_leaving_changes_nothing : forall pr ord o m before ev after, o_input o = None ->
  out_ending (main pr ord o m before) = Running -> exit_key ev ->
  let r := main pr ord o m (before ++ ev :: after) in
  out_file r = out_file (main pr ord o m before) /\
  out_terminal r = out_terminal (main pr ord o m before) ++ (if a_alternate_screen (o_args o) then [] else [Print [c_newline]]).
Proof. intros pr ord o m before ev after I R K. destruct (main_exit pr ord o m before ev after I R K) as (_ & A & B). auto. Qed.
Print Assumptions C77_leaving_changes_nothing.
(** Nothing happens after the end. *)
Theorem C77_the_end_is_the_end : forall pr ord o m evs more, ended (out_ending (main pr ord o m evs)) ->
  main pr ord o m (evs ++ more) = main pr ord o m evs.
Proof. exact ends_once. Qed.
Print Assumptions C77_the_end_is_the_end.
(** Where the surroundings work (the terminal and the database start, no call fails), a run ends with an error only because of
    the display -- a window too narrow, coordinates beyond 16 bits -- or a paste. *)
Theorem C77_errors_in_working_surroundings : forall pr ord o m evs e, (forall n, iterates (ord n)) -> valid_settings (o_args o) ->
  made_file (m_file m) -> database_works m -> database_ready o m -> terminal_starts o m ->
  out_ending (main pr ord o m evs) = FailedWith e ->
  exists e', e = Runtime e' /\ (display_failure e' \/ e' = paste_error).
Proof. exact working_end. Qed.
Print Assumptions C77_errors_in_working_surroundings.
Example C77_example :
  let status evs := exit_status (out_ending (main Debug (fun _ => order) plain (machine0 empty_db) evs)) in
  let lines := typing_lines [lit "1+1"; lit "/nope"] in
  status lines = None /\ status (lines ++ [EvKey (KChar 100%N) CONTROL; EvPaste]) = Some 0%N /\
  status (lines ++ [EvPaste; EvKey (KChar 100%N) CONTROL]) = Some 1%N /\
  status (typing_lines [lit "1%0"] ++ [EvKey (KChar 100%N) CONTROL]) = Some 101%N /\
  database_ready plain (machine0 empty_db) /\ terminal_starts plain (machine0 empty_db) /\ database_works (machine0 empty_db).
Proof.
  cbv zeta. split; [vm_compute; reflexivity|]. split; [vm_compute; reflexivity|]. split; [vm_compute; reflexivity|]. split; [vm_compute; reflexivity|].
  split; [right; right; split; reflexivity|]. split; [split; [reflexivity|discriminate]|]. intros [].
Qed.
