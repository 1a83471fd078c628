(** Io.v -- the same program with a terminal that can fail at any moment.  Every use of the terminal in
    [interactive_calc] (src/main.rs:149-511) carries a [?]: [cursor::position] and [terminal::size] at the start
    of a line, each queued command, each flush, and [event::read].  [faults] says of each use in turn whether it
    fails ([true]); once the list is used up everything works.
    Simplification: a display is computed ([display]) before its first command is queued, where the code
    interleaves the two; nothing in between can fail (the conversions come first and the slices are in range).
    The commands reported are those queued without an error: what has reached the screen when a later command or
    the flush fails is a beginning of them. *)
From Verif Require Import Base Position Num TokenTypes Errors Token SavedData Variables InputHistory
  SyntaxTree Commands Calculate Editor Main.
From Coq Require Import String.
Local Open Scope list_scope.

(** One use of the terminal: the faults left, and whether it works.
    src/main.rs:165 [cursor::position()?], 166 [terminal::size()?], 231 and 508 [stdout.flush()?], 303 [event::read()?] *)
Definition io_use (faults : list bool) : list bool * bool := (tl faults, negb (hd false faults)).

(** [queue!(stdout, c1, c2, ...)?]: the commands queued before the first failure, and whether all were. *)
Fixpoint io_queue (cmds : list tcmd) (faults : list bool) : list bool * list tcmd * bool :=
  match cmds with
  | [] => (faults, [], true)
  | c :: cmds' =>
      match io_use faults with
      | (faults', false) => (faults', [], false)
      | (faults', true) => let '(rest, queued, ok) := io_queue cmds' faults' in (rest, c :: queued, ok)
      end
  end.
(** [queue!] followed by [flush], or [execute!]: src/main.rs:184-231, 281-290, 317, 496-508 *)
Definition io_send (cmds : list tcmd) (faults : list bool) : list bool * list tcmd * bool :=
  match io_queue cmds faults with
  | (rest, queued, true) => let '(rest', ok) := io_use rest in (rest', queued, ok)
  | failed => failed
  end.

(** How [interactive_calc] returns for a [status] of the editor. *)
Definition ending_of (st : status) : ending :=
  match st with
  | Waiting => Running
  | Exited => Succeeded
  | Failed e => FailedWith (Runtime e)
  | Crashed p => Panicked p
  end.
(** The result of a stretch of the session: the faults left, the state, the commands, how it stands. *)
Definition io_result := (list bool * ui * list tcmd * ending)%type.

(** src/main.rs:163-167 and the first display of the line *)
Definition io_start_line (pr : profile) (tm : terminal) (u : ui) (faults : list bool) : io_result :=
  match io_use faults with                                                (* cursor::position()? *)
  | (f1, false) => (f1, u, [], FailedWith TerminalFailed)
  | (f1, true) =>
      match io_use f1 with                                                (* terminal::size()? *)
      | (f2, false) => (f2, u, [], FailedWith TerminalFailed)
      | (f2, true) =>
          match start_line pr tm u with
          | (u', cmds, Waiting) =>
              match io_send cmds f2 with
              | (f3, sent, true) => (f3, u', sent, Running)
              | (f3, sent, false) => (f3, u', sent, FailedWith TerminalFailed)
              end
          | (u', cmds, st) => (f2, u', cmds, ending_of st)
          end
      end
  end.

(** src/main.rs:456-508: as [finish_line] of Editor.v, with the uses of the terminal in their places *)
Definition io_finish_line (pr : profile) (ord : nat -> list str -> list str) (x : executor)
           (tm : terminal) (u : ui) (faults : list bool) : io_result :=
  let alt := a_alternate_screen (u_args u) in
  match display pr alt true (u_line u) (u_inputs u) with
  | Err e => (faults, u, [], FailedWith (Runtime e))
  | Panic p => (faults, u, [], Panicked p)
  | Ok (_, out1) =>
      match io_send out1 faults with                                      (* src/main.rs:184-231 *)
      | (f1, sent1, false) => (f1, u, sent1, FailedWith TerminalFailed)
      | (f1, sent1, true) =>
          match current_line (u_inputs u) with
          | Err e => (f1, u, sent1, FailedWith (Runtime e))
          | Panic p => (f1, u, sent1, Panicked p)
          | Ok input =>
              let se := mkSession (u_args u) (Some (u_inputs u)) (mkEnv (Some (u_vars u)) (u_db u)) in
              let '(se', r) := calculate pr (ord (u_count u)) x input se in
              let u' := mkUi (s_args se')
                             (match e_vars (s_env se') with Some v => v | None => u_vars u end)
                             (e_db (s_env se'))
                             (match s_inputs se' with Some h => h | None => u_inputs u end)
                             (u_line u) (S (u_count u)) in
              match render r with
              | Panic p => (f1, u', sent1, Panicked p)
              | Err e => (f1, u', sent1, FailedWith (Runtime e))
              | Ok text =>
                  match io_send (print_output alt text) f1 with           (* src/main.rs:495-508 *)
                  | (f2, sent2, false) => (f2, u', sent1 ++ sent2, FailedWith TerminalFailed)
                  | (f2, sent2, true) =>
                      let '(f3, u'', sent3, e) := io_start_line pr tm u' f2 in
                      (f3, u'', sent1 ++ sent2 ++ sent3, e)
                  end
              end
          end
      end
  end.

(** src/main.rs:303-480: an event that has been read *)
Definition io_step (pr : profile) (ord : nat -> list str -> list str) (x : executor)
           (tm : terminal) (ev : event) (u : ui) (faults : list bool) : io_result :=
  let '(l', h', db', act) := handle_event ev (u_line u) (u_inputs u) (u_db u) in
  let u' := mkUi (u_args u) (u_vars u) db' h' l' (u_count u) in
  match act with
  | AIgnore => (faults, u', [], Running)
  | AExit =>
      if a_alternate_screen (u_args u) then (faults, u', [], Succeeded)
      else match io_send [Print [c_newline]] faults with                  (* src/main.rs:315-318 *)
           | (f1, sent, true) => (f1, u', sent, Succeeded)
           | (f1, sent, false) => (f1, u', sent, FailedWith TerminalFailed)
           end
  | AFail e => (faults, u', [], FailedWith (Runtime e))
  | APanic p => (faults, u', [], Panicked p)
  | AEnter => io_finish_line pr ord x tm u' faults
  | ARedraw =>
      match display pr (a_alternate_screen (u_args u)) false l' h' with
      | Err e => (faults, u', [], FailedWith (Runtime e))
      | Panic p => (faults, u', [], Panicked p)
      | Ok (l'', out) =>
          let u'' := mkUi (u_args u) (u_vars u) db' h' l'' (u_count u) in
          match io_send out faults with                                   (* src/main.rs:184-231, 281-290 *)
          | (f1, sent, true) => (f1, u'', sent, Running)
          | (f1, sent, false) => (f1, u'', sent, FailedWith TerminalFailed)
          end
      end
  end.

(** src/main.rs:303: reading fails, or gives the next event, or has none to give yet *)
Fixpoint io_events (pr : profile) (ord : nat -> list str -> list str) (x : executor)
         (tm : terminal) (evs : list event) (u : ui) (faults : list bool) : io_result :=
  match io_use faults with
  | (f1, false) => (f1, u, [], FailedWith TerminalFailed)
  | (f1, true) =>
      match evs with
      | [] => (f1, u, [], Running)
      | ev :: evs' =>
          match io_step pr ord x tm ev u f1 with
          | (f2, u', sent, Running) =>
              let '(f3, u'', sent', e) := io_events pr ord x tm evs' u' f2 in (f3, u'', sent ++ sent', e)
          | stopped => stopped
          end
      end
  end.

(** src/main.rs:149-511, the database handle being open *)
Definition io_interactive (pr : profile) (ord : nat -> list str -> list str) (x : executor)
           (tm : terminal) (a : args) (db : option saved_data) (evs : list event) (faults : list bool) : io_result :=
  match io_start_line pr tm
          (mkUi a vs_new db (ih_new (match db with Some _ => true | None => false end)) (mkLine 0 0 (0, 0) 0) 0) faults with
  | (f1, u, sent, Running) =>
      let '(f2, u', sent', e) := io_events pr ord x tm evs u f1 in (f2, u', sent ++ sent', e)
  | stopped => stopped
  end.

(** src/main.rs:149-511 [interactive_calc], as in Main.v *)
Definition io_interactive_calc (pr : profile) (ord : nat -> list str -> list str) (x : executor)
           (o : options) (m : machine) (evs : list event) (faults : list bool)
  : database * args * list tcmd * ending :=
  let opened := if o_no_db o then (m_file m, inr (Ok None)) else open_database m in
  match opened with
  | (file, inl e) => (file, o_args o, [], FailedWith e)
  | (file, inr (Err e)) => (file, o_args o, [], FailedWith (Runtime e))
  | (file, inr (Panic p)) => (file, o_args o, [], Panicked p)
  | (file, inr (Ok db)) =>
      let '(_, u, cmds, e) := io_interactive pr ord x (m_terminal m) (o_args o) db evs faults in
      (file_of file u, u_args u, cmds, e)
  end.

(** src/main.rs:96-142 [main], as in Main.v.  [println!] and [eprintln!] (src/main.rs:112, 114) panic when the
    stream cannot be written; [UnwrapFailed] stands for that panic. *)
Definition io_main (pr : profile) (ord : nat -> list str -> list str) (o : options) (m : machine)
           (evs : list event) (faults : list bool) : outside :=
  match executor_new with
  | Panic p => mkOutside (m_file m) [] [] [] as_found (Panicked p)
  | Err e => match e : Empty_set with end
  | Ok x =>
      match o_input o with
      | Some input =>
          let broken := mkOutside (m_file m) [] [] [] as_found (Panicked UnwrapFailed) in
          match one_shot pr (ord 0) (o_args o) input with
          | Stdout line =>
              if snd (io_use faults) then mkOutside (m_file m) (line ++ [c_newline]) [] [] as_found Succeeded else broken
          | Stderr line =>
              if snd (io_use faults) then mkOutside (m_file m) [] (line ++ [c_newline]) [] as_found Succeeded else broken
          | MainError e => mkOutside (m_file m) [] [] [] as_found (FailedWith (Runtime e))
          | Crash p => mkOutside (m_file m) [] [] [] as_found (Panicked p)
          end
      | None =>
          if negb (m_enable_raw m) then mkOutside (m_file m) [] [] [] as_found (FailedWith TerminalFailed)
          else if a_alternate_screen (o_args o) && negb (m_enter_screen m)
          then mkOutside (m_file m) [] [] [] (mkModes (negb (m_disable_raw m)) false) (FailedWith TerminalFailed)
          else
            let tty := mkModes true (a_alternate_screen (o_args o)) in
            let '(file, a, cmds, e) := io_interactive_calc pr ord x o m evs faults in
            mkOutside file [] [] cmds (restore m a tty e) e
      end
  end.
