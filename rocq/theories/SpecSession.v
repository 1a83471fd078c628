(** SpecSession.v -- whole sessions as the user sees them: the screen, typing, what Enter prints. *)
From Verif Require Import Base Position Num TokenTypes Errors Token SavedData Variables InputHistory
  SyntaxTree Commands Calculate Editor Sessions SpecEval SpecHistory SpecEditor SpecCalc.
From Coq Require Import String.
Local Open Scope nat_scope.
Local Open Scope list_scope.

(** What a line submitted now would be evaluated in. *)
Definition session_of (u : ui) : session :=
  mkSession (u_args u) (Some (u_inputs u)) (mkEnv (Some (u_vars u)) (u_db u)).

(** A session of the program whose database, if it has one, was made by the program and works:
    no call fails for reasons outside the program.  A session without line history (the one-shot
    mode) has no database. *)
Definition working_session (se : session) : Prop :=
  valid_settings (s_args se) /\ env_ok (s_env se) /\ real_database (s_env se) /\ no_faults (s_env se) /\
  match s_inputs se with Some h => history_of_session h | None => e_db (s_env se) = None end.
(** The same for the database handle a session starts with. *)
Definition working_database (db : option saved_data) : Prop :=
  forall sd, db = Some sd -> program_file (sd_db sd) /\ ~ In true (sd_faults sd).

(** ** Replies *)
(** What a failure is called.  (The wordings of SQLite's own errors are placeholders, see DESIGN.md.) *)
Definition failure_text (e : runtime_error) : str :=
  match e with
  | InternalCalculatorError t => lit "InternalCalculatorError: " ++ t
  | CalculatorEnvironmentError t => lit "CalculatorEnvironmentError: " ++ t
  | CalculatorDatabaseInconsistencyError t => lit "CalculatorDatabaseInconsistencyError: " ++ t
  | SqliteError => lit "sqlite"
  | SqliteConstraint => lit "sqlite constraint"
  | IntConversionError => lit "out of range integral type conversion attempted"
  end.
Inductive reply_text : outcome failure str -> str -> Prop :=
| rt_answer : forall s, reply_text (Ok s) s
| rt_error : forall m, reply_text (Err (InputError m)) (lit "Error: " ++ mp_value m)
| rt_failure : forall e, reply_text (Err (RuntimeError e)) (lit "Runtime Error: " ++ failure_text e).
(** The rows of a text: it is the rows joined by newlines. *)
Fixpoint join_rows (rows : list str) : str :=
  match rows with
  | [] => []
  | [r] => r
  | r :: rest => r ++ c_newline :: join_rows rest
  end.
Definition rows_of (text : str) (rows : list str) : Prop :=
  rows <> [] /\ Forall (fun r => ~ In c_newline r) rows /\ text = join_rows rows.
(** How a row of a reply is written: the row, then to the start of the next one. *)
Definition row_output (alternate : bool) (row : str) : list tcmd :=
  Print row :: (if alternate then [MoveToNextLine 1] else [Print (lit "
"); MoveToColumn 0]).

(** ** The screen in inline mode *)

(** The finished rows (top first), the row the cursor is on, and its column.  Rows are as long as
    they are written: how a terminal folds a row longer than its width is its own affair. *)
Record screen := mkScreen { sc_above : list str; sc_row : str; sc_col : nat }.
(** Writing [s] into a row at a column: what was there is overwritten. *)
Definition write (row : str) (col : nat) (s : str) : str :=
  firstn col (row ++ repeat c_space (col - List.length row)) ++ s ++ skipn (col + List.length s) row.
(** The effect of the commands used in inline mode (raw mode: a newline keeps the column). *)
Definition on_screen (s : screen) (c : tcmd) : screen :=
  match c with
  | MoveToColumn k => mkScreen (sc_above s) (sc_row s) k
  | ClearCurrentLine => mkScreen (sc_above s) [] (sc_col s)
  | Print t => if str_eqb t [c_newline] then mkScreen (sc_above s ++ [sc_row s]) [] (sc_col s)
               else mkScreen (sc_above s) (write (sc_row s) (sc_col s) t) (sc_col s + List.length t)
  | _ => s
  end.
Definition screen_after (cmds : list tcmd) (s : screen) : screen := fold_left on_screen cmds s.

(** The rows a submitted line leaves: the prompt or two spaces, each followed by a piece of it; the
    pieces are the line folded to the width that is left. *)
Definition echo (cols : nat) (line : str) (rows : list str) : Prop :=
  exists first rest, rows = (lit "# " ++ first) :: map (app (lit "  ")) rest /\ folded (cols - 2) line (first :: rest).

(** A terminal in inline mode that is at least [w] columns wide and whose columns and rows are
    16-bit numbers, with room to spare for a line of [n] characters. *)
Definition roomy (tm : terminal) (n : nat) : Prop :=
  forall k, 6 <= snd (tm k) /\ fits_u16 (snd (tm k)) /\ fits_u16 (n + snd (fst (tm k))).

(** ** Typing *)
Definition typable (line : str) : Prop := Forall (fun c => (c < 128)%N /\ c <> 10%N) line.
Definition keys_of (line : str) : list event := map (fun c => EvKey (KChar c) 0) line.
Definition enter_key : event := EvKey KEnter 0.
(** Typing the lines, each followed by Enter. *)
Definition typing_lines (lines : list str) : list event := flat_map (fun l => keys_of l ++ [enter_key]) lines.

(** The line is typed into the (fresh) input line of the session. *)
Definition type_in (line : str) (se : session) : session :=
  match s_inputs se with
  | None => se
  | Some h => mkSession (s_args se) (Some (mkIH (ih_internal h) (ih_db h) [Some line] 0 (ih_exhausted h))) (s_env se)
  end.
(** The lines are typed and evaluated one after the other, from the [n]-th on ([ord n] is the
    hash-set order at the [n]-th line); the texts are the replies. *)
Inductive dialogue (pr : profile) (ord : nat -> list str -> list str) (x : executor)
  : nat -> session -> list str -> session -> list (str * str) -> Prop :=
| dl_end : forall n se, dialogue pr ord x n se [] se []
| dl_line : forall n se line lines se1 r text se' rest,
    calculate pr (ord n) x line (type_in line se) = (se1, r) -> reply_text r text ->
    dialogue pr ord x (S n) se1 lines se' rest ->
    dialogue pr ord x n se (line :: lines) se' ((line, text) :: rest).
(** The rows that dialogue leaves on a terminal ([tm k] is the terminal at the k-th line). *)
Inductive transcript (tm : terminal) : nat -> list (str * str) -> list str -> Prop :=
| tr_end : forall n, transcript tm n [] []
| tr_line : forall n line text rest e r rows,
    echo (snd (tm n)) line e -> rows_of text r -> transcript tm (S n) rest rows ->
    transcript tm n ((line, text) :: rest) (e ++ r ++ rows).
(** A new session. *)
Definition new_session (a : args) (db : option saved_data) : session :=
  mkSession a (Some (ih_new (match db with Some _ => true | None => false end))) (mkEnv (Some []) db).
Definition blank : screen := mkScreen [] [] 0.

(** ** Failures that are not the database's *)

(** What the display can fail with (the window is too narrow, or a column or row number does not fit
    in 16 bits), and the failure a paste event ends the program with. *)
Definition display_failure (e : runtime_error) : Prop := e = CalculatorEnvironmentError (lit "Window too narrow") \/ e = IntConversionError.
Definition paste_error : runtime_error := InternalCalculatorError (lit "Paste unimplemented!").
