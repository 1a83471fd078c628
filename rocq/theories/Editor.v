(** Editor.v -- model of [interactive_calc] (src/main.rs:149-511): display, key handling and
    the outer loop.  The terminal is an oracle that supplies the cursor position and width at
    the start of each line and the sequence of events; what is written to it is recorded as
    a list of commands.  Failures of the terminal itself: Io.v. *)
From Verif Require Import Base Position Num TokenTypes Errors Token Operations SavedData Variables
                          InputHistory SyntaxTree Commands Calculate.
From Coq Require Import String.
Local Open Scope list_scope.

(** src/main.rs:37-42 *)
Definition PROMPT_STR : str := lit "# ".
Definition SCROLL_LEFT_INDICATOR_STR : str := lit "< ".
Definition SCROLL_RIGHT_INDICATOR_STR : str := lit " >".
Definition LARGE_CURSOR_MOVE_DISTANCE : nat := 15.

(** The crossterm commands the program queues (src/main.rs:12-23). *)
Inductive tcmd :=
| MoveTo (col row : nat)
| MoveToColumn (col : nat)
| MoveToNextLine (n : nat)
| ClearFromCursorDown
| ClearCurrentLine
| Print (s : str).

(** [u16::try_from(usize)] *)
Definition u16_try_from (n : nat) : outcome runtime_error nat :=
  if N.ltb (N.of_nat n) 65536 then Ok n else Err IntConversionError.
(** [u16 + u16] *)
Definition u16_add (pr : profile) (a b : nat) : outcome runtime_error nat :=
  if N.ltb (N.of_nat (a + b)) 65536 then Ok (a + b)
  else match pr with
       | Debug => Panic ArithOverflow
       | Release => Ok (N.to_nat (N.of_nat (a + b) mod 65536))
       end.
(** [&s[a..b]] on ASCII text: panics unless [a <= b <= len] *)
Definition slice {E} (s : str) (a b : nat) : outcome E str :=
  if Nat.leb a b && Nat.leb b (List.length s) then Ok (firstn (b - a) (skipn a s))
  else Panic IndexOutOfBounds.

Definition window_too_narrow : runtime_error := CalculatorEnvironmentError (lit "Window too narrow").

(** src/main.rs:203-219: the continuation lines of the wrapped display *)
Fixpoint wrap_rest (fuel : nat) (newline : list tcmd) (wrap_str input : str) (available i : nat)
  : outcome runtime_error (list tcmd) :=
  match fuel with
  | O => Panic OutOfFuel
  | S f =>
      if Nat.ltb i (List.length input) then
        let end_index := Nat.min (i + available) (List.length input) in
        part <- slice input i end_index ;;
        more <- wrap_rest f newline wrap_str input available end_index ;;
        Ok (newline ++ [Print wrap_str; Print part] ++ more)
      else Ok []
  end.

(** src/main.rs:176-231: the wrapped display *)
Definition display_wrapped (pr : profile) (alternate complete : bool) (cols cursor : nat)
           (start : nat * nat) (input : str) : outcome runtime_error (list tcmd) :=
  let wrap_str := repeat c_space (List.length PROMPT_STR) in
  if Nat.ltb cols (List.length wrap_str) then Err window_too_narrow
  else
    let available := cols - List.length wrap_str in
    if Nat.eqb available 0 then Panic DivideByZero (* [cursor_pos / available_cols] *)
    else
      q <- u16_try_from (Nat.div cursor available) ;;
      cursor_row <- u16_add pr q (snd start) ;;
      cursor_col <- u16_try_from (Nat.modulo cursor available + List.length wrap_str) ;;
      let end_index := Nat.min available (List.length input) in
      let newline :=
        if alternate then [MoveToNextLine 1] else [Print [c_newline]; MoveToColumn 0] in
      let prefix := if alternate then [MoveTo (fst start) (snd start); ClearFromCursorDown]
                    else [MoveToColumn 0; ClearCurrentLine] in
      first <- slice input 0 end_index ;;
      rest <- wrap_rest (S (List.length input)) newline wrap_str input available end_index ;;
      Ok (prefix ++ [Print PROMPT_STR; Print first] ++ rest ++
          (if complete then newline else [MoveTo cursor_col cursor_row])).

(** src/main.rs:246-259: where the scroll window starts *)
Definition next_scroll_offset (cursor offset window len : nat) : nat :=
  if Nat.ltb cursor offset || Nat.ltb (offset + window) (cursor + 1) then
    if Nat.ltb len window then 0
    else
      let rel := Nat.max 1 (Nat.min window (window / 3 * 2)) in
      if Nat.ltb cursor rel then 0 else cursor - rel
  else offset.

(** src/main.rs:233-290: the one-line scrolling display; returns the new scroll offset.
    [cursor_pos - scroll_offset] (usize) is checked for underflow. *)
Definition display_scrolling (pr : profile) (cols cursor offset : nat) (input : str)
  : outcome runtime_error (nat * list tcmd) :=
  let reserved := List.length SCROLL_LEFT_INDICATOR_STR + List.length SCROLL_RIGHT_INDICATOR_STR in
  if Nat.leb cols reserved then Err window_too_narrow
  else
    let window := cols - reserved in
    let off := next_scroll_offset cursor offset window (List.length input) in
    let opener := if Nat.eqb off 0 then PROMPT_STR else SCROLL_LEFT_INDICATOR_STR in
    let overflow_right := Nat.ltb (off + window) (List.length input) in
    let closer := if overflow_right then SCROLL_RIGHT_INDICATOR_STR else [] in
    let end_index := if overflow_right then off + window else List.length input in
    if Nat.ltb cursor off then Panic ArithOverflow
    else
      scrolled <- u16_try_from (cursor - off + List.length opener) ;;
      part <- slice input off end_index ;;
      Ok (off, [MoveToColumn 0; ClearCurrentLine; Print opener; Print part; Print closer;
                MoveToColumn scrolled]).

(** crossterm's events as far as the code tells them apart.  [mods] is the
    [KeyModifiers] bit set: SHIFT = 1, CONTROL = 2, ALT = 4, ... *)
Inductive keycode :=
| KChar (c : char) | KBackspace | KDelete | KUp | KDown | KLeft | KRight | KHome | KEnd | KEnter
| KOther.
Inductive event :=
| EvKey (code : keycode) (mods : N)
| EvPaste
| EvResize (width : nat)
| EvOther.
Definition SHIFT : N := 1%N.
Definition CONTROL : N := 2%N.

(** The variables of the 'get_input_line loop: src/main.rs:163-167. *)
Record line_state := mkLine
  { l_cursor : nat; l_scroll : nat; l_start : nat * nat; l_cols : nat }.

(** What an event leads to: [continue 'get_event], [break 'get_event] (redisplay),
    the line is complete, [break 'calculate], [return Err], or a panic. *)
Inductive action :=
| AIgnore | ARedraw | AEnter | AExit | AFail (e : runtime_error) | APanic (p : panic).

(** src/main.rs:346-367: the search for the matching parenthesis; [None] = not found.
    [open_count -= 1] (usize) is checked for underflow. *)
Fixpoint paren_search (fuel : nat) (bytes : str) (left : bool) (open_paren close_paren : char)
         (pos count : nat) : outcome runtime_error (option nat) :=
  match fuel with
  | O => Panic OutOfFuel
  | S f =>
      b <- nth_ok bytes pos ;;
      count' <- (if N.eqb b open_paren then Ok (count + 1)
                 else if N.eqb b close_paren
                      then if Nat.eqb count 0 then Panic ArithOverflow else Ok (count - 1)
                      else Ok count) ;;
      if Nat.eqb count' 0 then Ok (Some pos)
      else if left && Nat.eqb pos 0 then Ok None
      else if negb left && Nat.leb (List.length bytes) (pos + 1) then Ok None
      else paren_search f bytes left open_paren close_paren
                        (if left then pos - 1 else pos + 1) count'
  end.

(** src/main.rs:319-336: Ctrl+M / Ctrl+N.  [Ok None] = nothing happens. *)
Definition paren_jump (line : str) (cursor : nat) : outcome runtime_error (option nat) :=
  if Nat.ltb (List.length line) 2 then Ok None
  else
    let pos := if Nat.leb (List.length line) cursor then List.length line - 1 else cursor in
    b <- nth_ok line pos ;;
    if N.eqb b c_open then paren_search (S (List.length line)) line false c_open c_close pos 0
    else if N.eqb b c_close then paren_search (S (List.length line)) line true c_close c_open pos 0
    else Ok None.

(** src/main.rs:412-420 and 429-437: how far Left and Right move; [None] = ignored. *)
Definition move_distance (mods : N) : option nat :=
  if N.eqb mods 0 then Some 1
  else if N.eqb mods CONTROL || N.eqb mods SHIFT then Some LARGE_CURSOR_MOVE_DISTANCE
  else None.

Definition with_cursor (l : line_state) (c : nat) : line_state :=
  mkLine c (l_scroll l) (l_start l) (l_cols l).

(** The result of handling one event. *)
Definition ev_result := (line_state * input_history * option saved_data * action)%type.

(** Run an outcome, turning failures into actions. *)
Definition or_stop {A} (r : outcome runtime_error A) (l : line_state) (h : input_history)
           (db : option saved_data) (k : A -> ev_result) : ev_result :=
  match r with
  | Ok a => k a
  | Err e => (l, h, db, AFail e)
  | Panic p => (l, h, db, APanic p)
  end.

(** src/main.rs:306-379: a character key *)
Definition handle_char (c : char) (mods : N) (l : line_state) (h : input_history)
           (db : option saved_data) : ev_result :=
  let insert (c' : char) :=
    or_stop (insert_char h (l_cursor l) c') l h db
            (fun h' => (with_cursor l (l_cursor l + 1), h', db, ARedraw)) in
  if negb (is_ascii c) then (l, h, db, AIgnore)
  else if N.eqb mods CONTROL && (N.eqb c 100 || N.eqb c 122 || N.eqb c 99)  (* d z c *)
  then (l, h, db, AExit)
  else if N.eqb mods CONTROL && (N.eqb c 109 || N.eqb c 110)                (* m n *)
  then
    or_stop (current_line h) l h db (fun line =>
    or_stop (paren_jump line (l_cursor l)) l h db (fun target =>
      match target with
      | None => (l, h, db, AIgnore)
      | Some pos => (with_cursor l pos, h, db, ARedraw)
      end))
  else if N.eqb mods SHIFT then insert (to_ascii_uppercase c)
  else if negb (N.eqb mods 0) then (l, h, db, AIgnore)
  else insert c.

(** src/main.rs:303-474: one iteration of the 'get_event loop *)
Definition handle_event (ev : event) (l : line_state) (h : input_history)
           (db : option saved_data) : ev_result :=
  match ev with
  | EvOther => (l, h, db, AIgnore)
  | EvPaste => (l, h, db, AFail (InternalCalculatorError (lit "Paste unimplemented!")))
  | EvResize width => (mkLine (l_cursor l) (l_scroll l) (l_start l) width, h, db, ARedraw)
  | EvKey code mods =>
      match code with
      | KChar c => handle_char c mods l h db
      | KBackspace =>
          if Nat.eqb (l_cursor l) 0 then (l, h, db, AIgnore)
          else or_stop (remove_char h (l_cursor l - 1)) l h db
                       (fun h' => (with_cursor l (l_cursor l - 1), h', db, ARedraw))
      | KDelete =>
          or_stop (current_line h) l h db (fun line =>
          if Nat.leb (List.length line) (l_cursor l) then (l, h, db, AIgnore)
          else or_stop (remove_char h (l_cursor l)) l h db (fun h' => (l, h', db, ARedraw)))
      | KUp =>
          match try_earlier h db with
          | (h', db', Ok true) =>
              or_stop (current_line h') l h' db' (fun line =>
                (mkLine (List.length line) 0 (l_start l) (l_cols l), h', db', ARedraw))
          | (h', db', Ok false) => (l, h', db', AIgnore)
          | (h', db', Err e) => (l, h', db', AFail e)
          | (h', db', Panic p) => (l, h', db', APanic p)
          end
      | KDown =>
          match try_later h with
          | (h', true) =>
              or_stop (current_line h') l h' db (fun line =>
                (mkLine (List.length line) 0 (l_start l) (l_cols l), h', db, ARedraw))
          | (h', false) => (l, h', db, AIgnore)
          end
      | KLeft =>
          match move_distance mods with
          | None => (l, h, db, AIgnore)
          | Some d =>
              (with_cursor l (if Nat.leb (l_cursor l) d then 0 else l_cursor l - d), h, db, ARedraw)
          end
      | KRight =>
          match move_distance mods with
          | None => (l, h, db, AIgnore)
          | Some d =>
              or_stop (current_line h) l h db (fun line =>
              let len := List.length line in
              (with_cursor l (if Nat.leb len d || Nat.leb (len - d) (l_cursor l)
                              then len else l_cursor l + d), h, db, ARedraw))
          end
      | KHome => (with_cursor l 0, h, db, ARedraw)
      | KEnd => or_stop (current_line h) l h db
                        (fun line => (with_cursor l (List.length line), h, db, ARedraw))
      | KEnter => (l, h, db, AEnter)
      | KOther => (l, h, db, AIgnore)
      end
  end.

(** src/main.rs:171-291: one display, scrolling or wrapped *)
Definition display (pr : profile) (alternate complete : bool) (l : line_state) (h : input_history)
  : outcome runtime_error (line_state * list tcmd) :=
  line <- current_line h ;;
  if alternate || complete then
    out <- display_wrapped pr alternate complete (l_cols l) (l_cursor l) (l_start l) line ;;
    Ok (l, out)
  else
    ' (off, out) <- display_scrolling pr (l_cols l) (l_cursor l) (l_scroll l) line ;;
    Ok (mkLine (l_cursor l) off (l_start l) (l_cols l), out).

(** [str::split('\n')] *)
Fixpoint split_lines (s cur : str) : list str :=
  match s with
  | [] => [rev cur]
  | c :: s' => if N.eqb c c_newline then rev cur :: split_lines s' []
               else split_lines s' (c :: cur)
  end.

(** [Display] of the boxed errors: src/error.rs:42-46, 63-67, 84-88; the texts of rusqlite's
    and std's own errors are placeholders. *)
Definition show_runtime_error (e : runtime_error) : str :=
  match e with
  | InternalCalculatorError m => lit "InternalCalculatorError: " ++ m
  | CalculatorEnvironmentError m => lit "CalculatorEnvironmentError: " ++ m
  | CalculatorDatabaseInconsistencyError m => lit "CalculatorDatabaseInconsistencyError: " ++ m
  | SqliteError => lit "sqlite"
  | SqliteConstraint => lit "sqlite constraint"
  | IntConversionError => lit "out of range integral type conversion attempted"
  end.
(** src/main.rs:489-493: what is printed for a result *)
Definition render (r : outcome failure str) : outcome runtime_error str :=
  match r with
  | Ok s => Ok s
  | Err (InputError m) => Ok (lit "Error: " ++ mp_value m)
  | Err (RuntimeError e) => Ok (lit "Runtime Error: " ++ show_runtime_error e)
  | Panic p => Panic p
  end.
(** src/main.rs:495-507 *)
Definition print_output (alternate : bool) (output : str) : list tcmd :=
  flat_map (fun line => Print line :: (if alternate then [MoveToNextLine 1]
                                       else [Print [c_newline]; MoveToColumn 0]))
           (split_lines output []).

(** State of the interactive program while it waits for an event. *)
Record ui := mkUi
  { u_args : args; u_vars : vstore; u_db : option saved_data; u_inputs : input_history;
    u_line : line_state; u_count : nat (* lines completed so far *) }.

Inductive status := Waiting | Exited | Failed (e : runtime_error) | Crashed (p : panic).

(** The terminal's answers at the start of the n-th line: cursor position and width
    (src/main.rs:165-166). *)
Definition terminal := nat -> (nat * nat) * nat.

(** src/main.rs:163-167 followed by the first display of the line *)
Definition start_line (pr : profile) (tm : terminal) (u : ui) : ui * list tcmd * status :=
  let l := mkLine 0 0 (fst (tm (u_count u))) (snd (tm (u_count u))) in
  match display pr (a_alternate_screen (u_args u)) false l (u_inputs u) with
  | Ok (l', out) => (mkUi (u_args u) (u_vars u) (u_db u) (u_inputs u) l' (u_count u), out, Waiting)
  | Err e => (mkUi (u_args u) (u_vars u) (u_db u) (u_inputs u) l (u_count u), [], Failed e)
  | Panic p => (mkUi (u_args u) (u_vars u) (u_db u) (u_inputs u) l (u_count u), [], Crashed p)
  end.

(** src/main.rs:456-508: the last display of the finished line, [calculate], the output, and
    the start of the next line.  [ord n] is the hash-set order used for line n. *)
Definition finish_line (pr : profile) (ord : nat -> list str -> list str) (x : executor)
           (tm : terminal) (u : ui) : ui * list tcmd * status :=
  let alt := a_alternate_screen (u_args u) in
  match display pr alt true (u_line u) (u_inputs u) with
  | Err e => (u, [], Failed e)
  | Panic p => (u, [], Crashed p)
  | Ok (_, out1) =>
      match current_line (u_inputs u) with
      | Err e => (u, out1, Failed e)
      | Panic p => (u, out1, Crashed p)
      | Ok input =>
          let se := mkSession (u_args u) (Some (u_inputs u)) (mkEnv (Some (u_vars u)) (u_db u)) in
          let '(se', r) := calculate pr (ord (u_count u)) x input se in
          let u' := mkUi (s_args se')
                         (match e_vars (s_env se') with Some v => v | None => u_vars u end)
                         (e_db (s_env se'))
                         (match s_inputs se' with Some h => h | None => u_inputs u end)
                         (u_line u) (S (u_count u)) in
          match render r with
          | Panic p => (u', out1, Crashed p)
          | Err e => (u', out1, Failed e)
          | Ok text =>
              let '(u'', out3, st) := start_line pr tm u' in
              (u'', out1 ++ print_output alt text ++ out3, st)
          end
      end
  end.

(** One event received while waiting. *)
Definition ui_step (pr : profile) (ord : nat -> list str -> list str) (x : executor)
           (tm : terminal) (ev : event) (u : ui) : ui * list tcmd * status :=
  let '(l', h', db', act) := handle_event ev (u_line u) (u_inputs u) (u_db u) in
  let u' := mkUi (u_args u) (u_vars u) db' h' l' (u_count u) in
  match act with
  | AIgnore => (u', [], Waiting)
  | AExit => (u', if a_alternate_screen (u_args u) then [] else [Print [c_newline]], Exited)
  | AFail e => (u', [], Failed e)
  | APanic p => (u', [], Crashed p)
  | AEnter => finish_line pr ord x tm u'
  | ARedraw =>
      match display pr (a_alternate_screen (u_args u)) false l' h' with
      | Ok (l'', out) => (mkUi (u_args u) (u_vars u) db' h' l'' (u_count u), out, Waiting)
      | Err e => (u', [], Failed e)
      | Panic p => (u', [], Crashed p)
      end
  end.

(** The run of the program on a sequence of events. *)
Fixpoint run_events (pr : profile) (ord : nat -> list str -> list str) (x : executor)
         (tm : terminal) (evs : list event) (u : ui) : ui * list tcmd * status :=
  match evs with
  | [] => (u, [], Waiting)
  | ev :: evs' =>
      match ui_step pr ord x tm ev u with
      | (u', out, Waiting) =>
          let '(u'', out', st) := run_events pr ord x tm evs' u' in (u'', out ++ out', st)
      | stopped => stopped
      end
  end.

(** src/main.rs:149-161: start of [interactive_calc] with the database handle already opened
    ([None]: --no-db or no home directory). *)
Definition interactive_start (pr : profile) (tm : terminal) (a : args) (db : option saved_data)
  : ui * list tcmd * status :=
  start_line pr tm
    (mkUi a vs_new db (ih_new (match db with Some _ => true | None => false end))
          (mkLine 0 0 (0, 0) 0) 0).
Definition interactive (pr : profile) (ord : nat -> list str -> list str) (x : executor)
           (tm : terminal) (a : args) (db : option saved_data) (evs : list event)
  : ui * list tcmd * status :=
  match interactive_start pr tm a db with
  | (u, out, Waiting) =>
      let '(u', out', st) := run_events pr ord x tm evs u in (u', out ++ out', st)
  | stopped => stopped
  end.
