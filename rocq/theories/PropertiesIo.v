(** PropertiesIo.v -- C80: a terminal that fails in the middle of a run. *)
From Verif Require Import Base Position Num TokenTypes Errors Token SavedData Variables InputHistory
  SyntaxTree Commands Calculate Editor Sessions Main Io SpecEval SpecHistory SpecEditor SpecCalc SpecSession SpecMain SpecIo.
From Verif Require Import ProofsCalc4 ProofsCalc8 ProofsMain3 ProofsIo ProofsIo2 PropertiesCalc PropertiesEditor PropertiesMain.
From Coq Require Import String Lia.
Local Open Scope list_scope.

(** ** C80 *)
(** Whichever uses of the terminal fail: the session behaves as on a sound terminal, or it ends with an error at the first
    failure.  Then nothing but the beginning of a sound session's output was written; the terminal is given back; and the
    file is that of the sound session on the events read -- or, if the last of them was Enter and the failure came
    while the completed line was being shown (so that nothing of its answer was), on the events before it. *)
Theorem C80_failure_is_a_clean_end : forall pr ord o m evs faults, o_input o = None -> terminal_starts o m ->
  let r := io_main pr ord o m evs faults in
  r = main pr ord o m evs \/
  (In true faults /\ out_ending r = FailedWith TerminalFailed /\ out_stdout r = [] /\ out_stderr r = [] /\ (terminal_obeys m -> out_modes r = as_found) /\
   exists read, begins read evs /\ begins (out_terminal r) (out_terminal (main pr ord o m read)) /\
     (out_file r = out_file (main pr ord o m read) \/
      exists before mods db u0 l echo, read = before ++ [EvKey KEnter mods] /\ out_file r = out_file (main pr ord o m before) /\
        out_ending (main pr ord o m before) = Running /\ opens o m db /\
        interactive pr ord the_executor (m_terminal m) (o_args o) db before = (u0, out_terminal (main pr ord o m before), Waiting) /\
        display pr (a_alternate_screen (o_args o)) true (u_line u0) (u_inputs u0) = Ok (l, echo) /\
        begins (out_terminal r) (out_terminal (main pr ord o m before) ++ echo))).
Proof. exact io_calc_spec. Qed.
Print Assumptions C80_failure_is_a_clean_end.
(** Without failures nothing changes. *)
Theorem C80_sound_terminal : forall pr ord o m evs faults, ~ In true faults -> io_main pr ord o m evs faults = main pr ord o m evs.
Proof. exact sound_terminal. Qed.
Print Assumptions C80_sound_terminal.
(** No failure is ignored and none is made up: a session that ends with a terminal error has had exactly one failing use,
    its last; any other has had none. *)
Theorem C80_no_failure_ignored : forall pr ord x tm a db evs faults, match io_interactive pr ord x tm a db evs faults with (faults', u, sent, e) =>
  (e = FailedWith TerminalFailed -> last_failed faults faults') /\ (e <> FailedWith TerminalFailed -> all_worked faults faults') end.
Proof.
  intros pr ord x tm a db evs f. pose proof (io_interactive_spec pr ord x tm a db evs f) as H. destruct (io_interactive pr ord x tm a db evs f) as [[[f' u] sent] e].
  destruct H as [(W & H)|(L & -> & _)]; [|split; [intros _; exact L|intros N; destruct (N eq_refl)]].
  destruct (interactive pr ord x tm a db evs) as [[u1 out] st]. destruct H as (_ & _ & ->). split; [|intros _; exact W]. destruct st; discriminate.
Qed.
Print Assumptions C80_no_failure_ignored.
(** The file is always one the program made, and the next run opens it. *)
Theorem C80_file_sound : forall pr ord o m evs faults, (forall n, iterates (ord n)) -> valid_settings (o_args o) -> made_file (m_file m) ->
  made_file (out_file (io_main pr ord o m evs faults)).
Proof. exact io_file. Qed.
Print Assumptions C80_file_sound.
(** A failure costs at most the line whose Enter was the last event read: everything submitted before, and every variable usable
    then, is on disk. *)
Theorem C80_at_most_the_last_line_is_lost : forall pr ord o m evs faults d0 sd,
  (forall n, iterates (ord n)) -> valid_settings (o_args o) -> made_file (m_file m) -> database_works m ->
  uses_database o m -> terminal_starts o m -> sd_open (m_faults m) (m_file m) = (d0, Ok sd) ->
  exists read processed u cmds st, begins read evs /\ (processed = read \/ exists mods, read = processed ++ [EvKey KEnter mods]) /\
    interactive pr ord the_executor (m_terminal m) (o_args o) (Some sd) processed = (u, cmds, st) /\
    ((forall line radix, In line (submitted u) -> ~ is_histcap radix line) -> room_for d0 (List.length (submitted u)) ->
     texts_of (out_file (io_main pr ord o m evs faults)) = texts_of (m_file m) ++ submitted u /\
     forall y v, on_disk (out_file (io_main pr ord o m evs faults)) y v <-> var_value (ui_env u) y v).
Proof. exact io_saved. Qed.
Print Assumptions C80_at_most_the_last_line_is_lost.
(** One-shot runs: if the line cannot be written the process panics; file and terminal are untouched either way. *)
Theorem C80_one_shot : forall pr ord o m evs faults input, o_input o = Some input ->
  let r := io_main pr ord o m evs faults in
  (r = main pr ord o m evs \/ (hd false faults = true /\ exists p, out_ending r = Panicked p)) /\
  out_file r = m_file m /\ out_modes r = as_found.
Proof. exact io_one_shot. Qed.
Print Assumptions C80_one_shot.
(** "$x = 2", Enter, "$y = $x", Enter, Control+C on terminals that fail at one use: in the first prompt, while the second line is
    echoed, while its answer is printed, while the next prompt is shown, at the newline of leaving; and one that never fails. *)
Definition failing_at (k : nat) : list bool := repeat false k ++ [true].
Definition evs0 : list event := typing_lines [lit "$x = 2"; lit "$y = $x"] ++ [EvKey (KChar 99%N) CONTROL].
Example C80_example :
  let run k := io_main Debug (fun _ => order) plain (machine0 empty_db) evs0 (failing_at k) in
  let seen k := (texts_of (out_file (run k)), screen_after (out_terminal (run k)) blank, out_ending (run k), out_modes (run k)) in
  let one := [lit "$x = 2"] in let two := [lit "$x = 2"; lit "$y = $x"] in
  seen 1 = ([], blank, FailedWith TerminalFailed, as_found) /\
  seen 139 = (one, mkScreen [lit "# $x = 2"; lit "2"] (lit "# $y = $x") 9, FailedWith TerminalFailed, as_found) /\
  seen 142 = (two, mkScreen [lit "# $x = 2"; lit "2"; lit "# $y = $x"] [] 0, FailedWith TerminalFailed, as_found) /\
  seen 143 = (two, mkScreen [lit "# $x = 2"; lit "2"; lit "# $y = $x"] (lit "2") 1, FailedWith TerminalFailed, as_found) /\
  seen 153 = (two, mkScreen [lit "# $x = 2"; lit "2"; lit "# $y = $x"; lit "2"] (lit "# ") 2, FailedWith TerminalFailed, as_found) /\
  seen 156 = (two, mkScreen [lit "# $x = 2"; lit "2"; lit "# $y = $x"; lit "2"] (lit "# ") 2, FailedWith TerminalFailed, as_found) /\
  (let r := io_main Debug (fun _ => order) plain (machine0 empty_db) evs0 [] in
   r = main Debug (fun _ => order) plain (machine0 empty_db) evs0 /\ out_ending r = Succeeded /\ texts_of (out_file r) = two).
Proof. vm_compute. repeat split. Qed.
