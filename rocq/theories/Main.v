(** Main.v -- model of [main] (src/main.rs:96-142) and of the way it starts [interactive_calc]
    (src/main.rs:149-161) and opens the database (src/saved_data.rs:123-140): a whole run of the
    program, from the command line to its end.  What the process does to the world outside it is
    the result: the database file, the standard streams, the terminal, the exit status. *)
From Verif Require Import Base Position Num TokenTypes Errors Token SavedData Variables InputHistory
  SyntaxTree Commands Calculate Editor.
From Coq Require Import String.
Local Open Scope list_scope.

(** src/main.rs:44-91 [Args] after parsing: the settings ([o_args]), [--input] and [--no-db]. *)
Record options := mkOptions { o_args : args; o_input : option str; o_no_db : bool }.

(** src/saved_data.rs:124-128: [env::var] of [_B_UTIL_DATA_DIR] (src/saved_data.rs:7). *)
Inductive data_root := RootUnset | RootNotUnicode | RootSet.

(** The surroundings of a run.
    [m_directory]: [create_dir] succeeds or finds the directory there (src/saved_data.rs:130-134).
    [m_file]: the content of the database file ([empty_db] when there is none); [m_faults]: which of
    the database calls fail for external reasons, [Connection::open] being part of the first.
    [m_enable_raw], [m_enter_screen], [m_leave_screen], [m_disable_raw]: whether the terminal obeys
    (src/main.rs:121, 123, 132, 134).  [m_terminal]: its answers at the start of each line. *)
Record machine := mkMachine {
  m_root : data_root; m_directory : bool; m_file : database; m_faults : list bool;
  m_enable_raw : bool; m_enter_screen : bool; m_leave_screen : bool; m_disable_raw : bool;
  m_terminal : terminal }.

(** The errors [main] can return: [VarError::NotUnicode], [io::Error] (creating the directory; the
    terminal) or one of the program's own. *)
Inductive main_error := BadRoot | DirectoryFailed | TerminalFailed | Runtime (e : runtime_error).
(** How the run stands: returned [Ok] or [Err], panicked, or waiting for the next event. *)
Inductive ending := Succeeded | FailedWith (e : main_error) | Panicked (p : panic) | Running.
(** The process's exit status: 0, 1 for an error returned by [main], 101 for a panic. *)
Definition exit_status (e : ending) : option N :=
  match e with Succeeded => Some 0%N | FailedWith _ => Some 1%N | Panicked _ => Some 101%N | Running => None end.

(** The state of the terminal, relative to how it was found. *)
Record modes := mkModes { raw : bool; alternate : bool }.
Definition as_found : modes := mkModes false false.

(** [out_stdout]/[out_stderr]: what [println!]/[eprintln!] write (src/main.rs:112, 114; the message the
    Rust runtime prints for an error returned by [main] or a panic is Report.v's).  [out_terminal]: the
    terminal commands of [interactive_calc]. *)
Record outside := mkOutside {
  out_file : database; out_stdout : str; out_stderr : str; out_terminal : list tcmd;
  out_modes : modes; out_ending : ending }.

(** src/saved_data.rs:123-236 [SavedData::open], with the part before the connection. *)
Definition open_database (m : machine) : database * (main_error + outcome runtime_error (option saved_data)) :=
  match m_root m with
  | RootUnset => (m_file m, inr (Ok None))
  | RootNotUnicode => (m_file m, inl BadRoot)
  | RootSet =>
      if m_directory m
      then match sd_open (m_faults m) (m_file m) with
           | (file, Ok sd) => (file, inr (Ok (Some sd)))
           | (file, Err e) => (file, inr (Err e))
           | (file, Panic p) => (file, inr (Panic p))
           end
      else (m_file m, inl DirectoryFailed)
  end.

(** The file once the session stands as [u]: what its handle last left there. *)
Definition file_of (file : database) (u : ui) : database :=
  match u_db u with Some sd => sd_db sd | None => file end.

(** src/main.rs:149-511 [interactive_calc]: the file, the settings as it leaves them, the commands to
    the terminal and how it ended. *)
Definition interactive_calc (pr : profile) (ord : nat -> list str -> list str) (x : executor)
           (o : options) (m : machine) (evs : list event)
  : database * args * list tcmd * ending :=
  let opened := if o_no_db o then (m_file m, inr (Ok None)) else open_database m in
  match opened with
  | (file, inl e) => (file, o_args o, [], FailedWith e)
  | (file, inr (Err e)) => (file, o_args o, [], FailedWith (Runtime e))
  | (file, inr (Panic p)) => (file, o_args o, [], Panicked p)
  | (file, inr (Ok db)) =>
      let '(u, cmds, st) := interactive pr ord x (m_terminal m) (o_args o) db evs in
      (file_of file u, u_args u, cmds,
       match st with
       | Waiting => Running
       | Exited => Succeeded
       | Failed e => FailedWith (Runtime e)
       | Crashed p => Panicked p
       end)
  end.

(** src/main.rs:131-135: the end of the interactive branch of [main].  A panic unwinds past it. *)
Definition restore (m : machine) (a : args) (tty : modes) (e : ending) : modes :=
  match e with
  | Succeeded | FailedWith _ =>
      mkModes (if m_disable_raw m then false else raw tty)
              (if a_alternate_screen a then (if m_leave_screen m then false else alternate tty) else alternate tty)
  | Panicked _ | Running => tty
  end.

(** src/main.rs:96-142 [main].  [ord] is the hash-set iteration order at the successive lines. *)
Definition main (pr : profile) (ord : nat -> list str -> list str) (o : options) (m : machine)
           (evs : list event) : outside :=
  match executor_new with
  | Panic p => mkOutside (m_file m) [] [] [] as_found (Panicked p)
  | Err e => match e : Empty_set with end
  | Ok x =>
      match o_input o with
      | Some input =>
          match one_shot pr (ord 0) (o_args o) input with
          | Stdout line => mkOutside (m_file m) (line ++ [c_newline]) [] [] as_found Succeeded
          | Stderr line => mkOutside (m_file m) [] (line ++ [c_newline]) [] as_found Succeeded
          | MainError e => mkOutside (m_file m) [] [] [] as_found (FailedWith (Runtime e))
          | Crash p => mkOutside (m_file m) [] [] [] as_found (Panicked p)
          end
      | None =>
          if negb (m_enable_raw m) then mkOutside (m_file m) [] [] [] as_found (FailedWith TerminalFailed)
          else if a_alternate_screen (o_args o) && negb (m_enter_screen m)
          then mkOutside (m_file m) [] [] [] (mkModes (negb (m_disable_raw m)) false) (FailedWith TerminalFailed)
          else
            let tty := mkModes true (a_alternate_screen (o_args o)) in
            let '(file, a, cmds, e) := interactive_calc pr ord x o m evs in
            mkOutside file [] [] cmds (restore m a tty e) e
      end
  end.
