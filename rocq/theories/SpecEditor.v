(** SpecEditor.v -- what the line editor, its history and its display are supposed to do. *)
From Verif Require Import Base Position Num TokenTypes Errors SavedData InputHistory Editor.
From Coq Require Import String.
Local Open Scope nat_scope.
Local Open Scope list_scope.

(** The editor with the cursor elsewhere. *)
Definition cursor_to (l : line_state) (c : nat) : line_state := mkLine c (l_scroll l) (l_start l) (l_cols l).

(** ** Scrollback *)

(** The actions on the history of one session.  The database may be anything at each action
    (other sessions work on it too). *)
Inductive haction :=
| Up (db : option saved_data)
| Down
| TypeAt (i : nat) (c : char)
| EraseAt (i : nat)
| Submit (db : option saved_data).

(** What the user is told: the action took effect, had no effect, failed, or crashed. *)
Inductive answer := Moved | Refused | Error (e : runtime_error) | Crash (p : panic).

(** The program's history under an action. *)
Definition hstep (act : haction) (h : input_history) : input_history * answer :=
  match act with
  | Up db => match try_earlier h db with
             | (h', _, Ok true) => (h', Moved)
             | (h', _, Ok false) => (h', Refused)
             | (h', _, Err e) => (h', Error e)
             | (h', _, Panic p) => (h', Crash p)
             end
  | Down => match try_later h with (h', true) => (h', Moved) | (h', false) => (h', Refused) end
  | TypeAt i c => match @insert_char runtime_error h i c with
                  | Ok h' => (h', Moved) | Err e => (h, Error e) | Panic p => (h, Crash p) end
  | EraseAt i => match @remove_char runtime_error h i with
                 | Ok h' => (h', Moved) | Err e => (h, Error e) | Panic p => (h, Crash p) end
  | Submit db => match input_finished h db with
                 | (h', _, Ok _) => (h', Moved)
                 | (h', _, Err e) => (h', Error e)
                 | (h', _, Panic p) => (h', Crash p)
                 end
  end.

(** The specified history: this session's submitted lines and the lines fetched from disk (both
    newest first), whether the disk may still have more, pending edits, and which line is shown
    (0 = the line being composed). *)
Record sheet := mkSheet
  { sh_session : list str; sh_disk : list str; sh_more : bool; sh_edits : nat -> option str; sh_at : nat }.
Definition sh_new (use_db : bool) : sheet := mkSheet [] [] use_db (fun _ => None) 0.
Definition recalled (s : sheet) : list str := sh_session s ++ sh_disk s.
(** What position [k] shows: the edited text, or the recorded line. *)
Definition shown_at (s : sheet) (k : nat) : option str :=
  match sh_edits s k with
  | Some t => Some t
  | None => nth_error ([] :: recalled s) k
  end.
Definition put_edit (f : nat -> option str) (k : nat) (t : str) : nat -> option str :=
  fun j => if Nat.eqb j k then Some t else f j.
(** What the disk answers when asked for the next older line. *)
Definition from_disk (db : saved_data) : outcome runtime_error (option str) := snd (get_prev_input_history db).

Inductive sheet_step : haction -> sheet -> sheet -> answer -> Prop :=
| t_up : forall db s, sh_at s < List.length (recalled s) ->
    sheet_step (Up db) s (mkSheet (sh_session s) (sh_disk s) (sh_more s) (sh_edits s) (S (sh_at s))) Moved
| t_up_disk : forall db s t, sh_at s = List.length (recalled s) -> sh_more s = true -> from_disk db = Ok (Some t) ->
    sheet_step (Up (Some db)) s (mkSheet (sh_session s) (sh_disk s ++ [t]) true (sh_edits s) (S (sh_at s))) Moved
| t_up_last : forall db s, sh_at s = List.length (recalled s) -> sh_more s = true -> from_disk db = Ok None ->
    sheet_step (Up (Some db)) s (mkSheet (sh_session s) (sh_disk s) false (sh_edits s) (sh_at s)) Refused
| t_up_none : forall db s, sh_at s = List.length (recalled s) -> sh_more s = false ->
    sheet_step (Up db) s s Refused
| t_up_error : forall db s e, sh_at s = List.length (recalled s) -> sh_more s = true -> from_disk db = Err e ->
    sheet_step (Up (Some db)) s s (Error e)
| t_up_lost : forall s e, sh_at s = List.length (recalled s) -> sh_more s = true ->
    sheet_step (Up None) s s (Error (InternalCalculatorError e))
| t_down : forall s k, sh_at s = S k ->
    sheet_step Down s (mkSheet (sh_session s) (sh_disk s) (sh_more s) (sh_edits s) k) Moved
| t_down_none : forall s, sh_at s = 0 -> sheet_step Down s s Refused
| t_type : forall s i c t, shown_at s (sh_at s) = Some t -> i <= List.length t ->
    sheet_step (TypeAt i c) s
      (mkSheet (sh_session s) (sh_disk s) (sh_more s)
               (put_edit (sh_edits s) (sh_at s) (firstn i t ++ c :: skipn i t)) (sh_at s)) Moved
| t_erase : forall s i t, shown_at s (sh_at s) = Some t -> i < List.length t ->
    sheet_step (EraseAt i) s
      (mkSheet (sh_session s) (sh_disk s) (sh_more s)
               (put_edit (sh_edits s) (sh_at s) (firstn i t ++ skipn (S i) t)) (sh_at s)) Moved
| t_submit : forall db s t a, shown_at s (sh_at s) = Some t -> (a = Moved \/ exists e, a = Error e) ->
    sheet_step (Submit db) s (mkSheet (t :: sh_session s) (sh_disk s) (sh_more s) (fun _ => None) 0) a.

(** The positions given to the editing actions lie inside the line (the cursor invariant, C49). *)
Definition in_line (act : haction) (line : str) : Prop :=
  match act with
  | TypeAt i _ => i <= List.length line
  | EraseAt i => i < List.length line
  | _ => True
  end.

(** ** Parentheses *)
Definition depth_of (c : char) : Z := if N.eqb c c_open then 1%Z else if N.eqb c c_close then (-1)%Z else 0%Z.
(** Opening minus closing parentheses among positions [i..j] of the line. *)
Definition depth (line : str) (i j : nat) : Z :=
  fold_right Z.add 0%Z (map depth_of (firstn (S j - i) (skipn i line))).
(** The parenthesis at [i] and the one at [j] belong together. *)
Definition pair_at (line : str) (i j : nat) : Prop :=
  i < j /\ j < List.length line /\ nth_error line i = Some c_open /\ nth_error line j = Some c_close /\
  depth line i j = 0%Z /\ forall k, i <= k -> k < j -> (0 < depth line i k)%Z.
Definition partners (line : str) (p q : nat) : Prop := pair_at line p q \/ pair_at line q p.

(** ** Display *)

(** Terminal sizes and positions are 16-bit numbers. *)
Definition fits_u16 (n : nat) : Prop := (N.of_nat n < 65536)%N.

(** The rows the commands print: text goes to the last row; a new line starts a row. *)
Fixpoint add_text (rows : list str) (s : str) : list str :=
  match rows with
  | [] => [s]
  | [r] => [r ++ s]
  | r :: rest => r :: add_text rest s
  end.
Definition print_to (rows : list str) (c : tcmd) : list str :=
  match c with
  | Print s => if str_eqb s [c_newline] then rows ++ [[]] else add_text rows s
  | MoveToNextLine _ => rows ++ [[]]
  | _ => rows
  end.
Definition printed_rows (cmds : list tcmd) : list str := fold_left print_to cmds [[]].
(** [rows] is the text [s] folded at the width: full rows, then one that is not longer. *)
Definition folded (width : nat) (s : str) (rows : list str) : Prop :=
  exists front last, rows = front ++ [last] /\ List.concat rows = s /\
    Forall (fun r => List.length r = width) front /\ List.length last <= width /\ (last = [] -> s = []).
(** Where the cursor is left. *)
Definition final_command (cmds : list tcmd) : option tcmd := hd_error (rev cmds).

(** ** Runs of the scrollback *)

(** What is observed after each action: the answer and the line shown. *)
Definition shown (h : input_history) : outcome runtime_error str := current_line h.
Fixpoint hrun (acts : list haction) (h : input_history) : list (answer * outcome runtime_error str) :=
  match acts with
  | [] => []
  | act :: rest => let '(h', a) := hstep act h in (a, shown h') :: hrun rest h'
  end.
Fixpoint hend (acts : list haction) (h : input_history) : input_history :=
  match acts with [] => h | act :: rest => hend rest (fst (hstep act h)) end.
Inductive sheet_run : list haction -> sheet -> list (answer * outcome runtime_error str) -> Prop :=
| sh_nil : forall s, sheet_run [] s []
| sh_cons : forall act rest s s' a t obs, sheet_step act s s' a -> shown_at s' (sh_at s') = Some t ->
    sheet_run rest s' obs -> sheet_run (act :: rest) s ((a, Ok t) :: obs).
(** Every edit in the run is inside the line shown at that moment. *)
Fixpoint well_placed (acts : list haction) (h : input_history) : Prop :=
  match acts with
  | [] => True
  | act :: rest =>
      (forall line, shown h = Ok line -> in_line act line) /\ well_placed rest (fst (hstep act h))
  end.

(** The lines Up can recall: this session's, newest first, then those fetched from disk. *)
Definition recorded (h : input_history) : list str := rev (ih_internal h) ++ ih_db h.
(** A history as some session may have it at some moment. *)
Definition history_of_session (h : input_history) : Prop :=
  exists use_db acts, well_placed acts (ih_new use_db) /\ h = hend acts (ih_new use_db).
Definition moves_only (acts : list haction) : Prop :=
  forall a, In a acts -> match a with Up _ | Down => True | _ => False end.
Definition is_edit (a : haction) : Prop := match a with TypeAt _ _ | EraseAt _ => True | _ => False end.
Definition is_submit (a : haction) : Prop := match a with Submit _ => True | _ => False end.
(** No line is submitted and the line at position [k] is not edited. *)
Fixpoint spares (k : nat) (acts : list haction) (h : input_history) : Prop :=
  match acts with
  | [] => True
  | act :: rest => ~ is_submit act /\ (is_edit act -> ih_index h <> k) /\ spares k rest (fst (hstep act h))
  end.

(** ** The whole editor *)
Definition cursor_inside (u : ui) : Prop :=
  exists line, current_line (E := runtime_error) (u_inputs u) = Ok line /\ l_cursor (u_line u) <= List.length line.
(** Ctrl+D, Ctrl+Z and Ctrl+C. *)
Definition exit_key (ev : event) : Prop :=
  ev = EvKey (KChar 100%N) CONTROL \/ ev = EvKey (KChar 122%N) CONTROL \/ ev = EvKey (KChar 99%N) CONTROL.

(** ** Typing *)
(** [d] is the capital of [c]: 'A' of 'a', ..., 'Z' of 'z', and any other character itself. *)
Inductive capital : char -> char -> Prop :=
| cap_letter : forall k, (k < 26)%N -> capital (97 + k)%N (65 + k)%N
| cap_other : forall c, (c < 97 \/ 122 < c)%N -> capital c c.
