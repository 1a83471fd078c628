(** Interleave.v -- several interactive programs open at the same time on one database file, interleaved at every
    database call.  Together.v lets a program finish an event before another one moves; here a program handling Enter is
    a sequence of database calls (src/saved_data.rs, one transaction or statement each), and between any two of them
    every other program may move.  A line being processed is a tree: an answer, or a call and what the program does with
    each reply.  Only [calculate] (src/main.rs:514-588) makes more than one call per event.
    All definitions are for a program that has a database; without one it makes no calls and Editor.v applies. *)
From Verif Require Import Base Position Num TokenTypes Errors Token Operations SavedData Variables InputHistory
  SyntaxTree Commands Calculate Editor Sessions Main Io Together.
From Coq Require Import String.
Local Open Scope list_scope.

(** A computation of the program between two waits for an event: finished, or making a call. *)
Inductive io (A : Type) : Type := Finished (a : A) | Ask (c : call) (k : reply -> io A).
Arguments Finished {A} a.
Arguments Ask {A} c k.
Fixpoint io_bind {A B} (t : io A) (f : A -> io B) : io B :=
  match t with
  | Finished a => f a
  | Ask c k => Ask c (fun r => io_bind (k r) f)
  end.

(** What the caller gets from a call; a reply of another kind does not occur. *)
Definition misfit {A} : outcome runtime_error A := Err (InternalCalculatorError (lit "misfit")).
Definition done_of (r : reply) : outcome runtime_error unit :=
  match r with RDone => Ok tt | RError e => Err e | RCrash p => Panic p | _ => misfit end.
Definition id_of (r : reply) : outcome runtime_error Z :=
  match r with RId id => Ok id | RError e => Err e | RCrash p => Panic p | _ => misfit end.
Definition value_of (r : reply) : outcome runtime_error (option Q) :=
  match r with RValue v => Ok v | RError e => Err e | RCrash p => Panic p | _ => misfit end.
Definition max_of (r : reply) : outcome runtime_error Z :=
  match r with RMax n => Ok n | RError e => Err e | RCrash p => Panic p | _ => misfit end.

(** ** Variables (src/variable.rs) *)
(** src/variable.rs:30-53 [update] *)
Definition update_io (vars : vstore) (name : str) (value : Q) (id : Z) : io (vstore * outcome runtime_error unit) :=
  Ask (SetVariable name value id) (fun r => Finished (vs_insert vars name value, done_of r)).
(** src/variable.rs:55-74 [touch] *)
Definition touch_io (name : str) (id : Z) : io (outcome runtime_error unit) :=
  Ask (TouchVariable name id) (fun r => Finished (done_of r)).
(** src/variable.rs:100-111 [reload] *)
Definition reload_io (vars : vstore) (name : str) : io (vstore * outcome runtime_error (option Q)) :=
  Ask (GetVariable name) (fun r =>
    Finished (match value_of r with Ok (Some v) => vs_insert vars name v | _ => vars end, value_of r)).
(** src/variable.rs:78-95 [get] *)
Definition lookup_io (vars : vstore) (name : str) : io (vstore * outcome runtime_error (option Q)) :=
  match vs_get vars name with
  | Some v => Finished (vars, Ok (Some v))
  | None => reload_io vars name
  end.
(** src/variable.rs:117-129 [purge] *)
Definition purge_io (vars : vstore) (name : str) : io (vstore * outcome runtime_error unit) :=
  Ask (ClearVariable name) (fun r => Finished (vs_remove vars name, done_of r)).

(** ** Evaluation (src/syntax_tree.rs) *)
(** The [?] after a step. *)
Definition io_then {A B} (t : io (vstore * outcome failure A)) (f : A -> vstore -> io (vstore * outcome failure B))
  : io (vstore * outcome failure B) :=
  io_bind t (fun vr =>
    match snd vr with
    | Ok a => f a (fst vr)
    | Err e => Finished (fst vr, Err e)
    | Panic p => Finished (fst vr, Panic p)
    end).
(** src/syntax_tree.rs:71-85 [VariableNode::execute] *)
Definition variable_io (name : str) (p : position) (vars : vstore) : io (vstore * outcome failure Q) :=
  io_bind (lookup_io vars name) (fun vr =>
    Finished (fst vr,
      match snd vr with
      | Ok (Some v) => Ok v
      | Ok None => Err (fail_math (UnknownVariable name) p)
      | Err e => Err (RuntimeError e)
      | Panic q => Panic q
      end)).
(** the [execute] methods: src/syntax_tree.rs:50-57, 71-85, 100-122, 138-167, 186-230, 248-255 *)
Fixpoint exec_io (pr : profile) (a : args) (n : node) (vars : vstore) {struct n} : io (vstore * outcome failure Q) :=
  match n with
  | NNum v _ => Finished (vars, Ok v)
  | NVar name p => variable_io name p vars
  | NUn op p operand =>
      io_then (exec_io pr a operand vars) (fun x vars1 => Finished (vars1, exec_unary pr a op p x))
  | NBin op p x y =>
      io_then (exec_io pr a x vars) (fun vx vars1 =>
      io_then (exec_io pr a y vars1) (fun vy vars2 => Finished (vars2, exec_binary pr a op p vx vy)))
  | NFun f p operands _ =>
      io_then ((fix list_io (l : list node) (vars0 : vstore) : io (vstore * outcome failure (list Q)) :=
                  match l with
                  | [] => Finished (vars0, Ok [])
                  | m :: l' =>
                      io_then (exec_io pr a m vars0) (fun v vars1 =>
                      io_then (list_io l' vars1) (fun vs vars2 => Finished (vars2, Ok (v :: vs))))
                  end) operands vars)
              (fun vs vars1 => Finished (vars1, exec_function f p vs))
  | NParen _ _ m => exec_io pr a m vars
  end.
(** src/syntax_tree.rs:787-808 [SyntaxTree::execute] *)
Definition tree_io (pr : profile) (a : args) (t : syntax_tree) (id : Z) (vars : vstore)
  : io (vstore * outcome failure Q) :=
  io_then (exec_io pr a (st_root t) vars) (fun result vars1 =>
    match st_var t with
    | None => Finished (vars1, Ok result)
    | Some v =>
        io_bind (update_io vars1 (pd_value v) result id) (fun vr =>
          Finished (fst vr,
            match snd vr with
            | Ok _ => Ok result
            | Err e => Err (RuntimeError e)
            | Panic q => Panic q
            end))
    end).

(** ** Commands (src/commands.rs) *)
(** src/commands.rs:275-289 *)
Fixpoint reload_loop_io (names : list str) (output : str) (touched : list str) (vars : vstore)
  : io (vstore * outcome runtime_error (str * list str)) :=
  match names with
  | [] => Finished (vars, Ok (output, touched))
  | name :: rest =>
      let output := match output with [] => [] | _ => output ++ nl end in
      io_bind (reload_io vars name) (fun vr =>
        match snd vr with
        | Ok (Some v) =>
            reload_loop_io rest (output ++ lit "Set " ++ name ++ lit " to " ++ show_ratio v)
                           (touched ++ [name]) (fst vr)
        | Ok None => reload_loop_io rest (output ++ name ++ lit " unchanged") (touched ++ [name]) (fst vr)
        | Err e => Finished (fst vr, Err e)
        | Panic p => Finished (fst vr, Panic p)
        end)
  end.
(** src/commands.rs:355-360 *)
Fixpoint purge_loop_io (names : list str) (vars : vstore) : io (vstore * outcome runtime_error unit) :=
  match names with
  | [] => Finished (vars, Ok tt)
  | name :: rest =>
      io_bind (purge_io vars name) (fun vr =>
        match snd vr with
        | Ok _ => purge_loop_io rest (fst vr)
        | Err e => Finished (fst vr, Err e)
        | Panic p => Finished (fst vr, Panic p)
        end)
  end.
(** A handle, for the commands that only look whether there is a database (src/commands.rs:190-240). *)
Definition some_handle : saved_data := mkSD empty_db None [].
Definition command_answer := (args * vstore * outcome failure (str * list str))%type.
(** src/commands.rs:126 (dispatch), 260-292 /reloadvar, 339-365 /purgevar, 421-457 /histcap; the other commands make
    no database call and leave the variables alone: they are as in Commands.v. *)
Definition command_io (pr : profile) (ord : list str -> list str) (x : executor) (c : command)
           (arguments : positioned str) (a : args) (vars : vstore) : io command_answer :=
  match c with
  | CReloadVar =>
      match tokenize_variable_list (pd_value arguments) with
      | Panic p => Finished (a, vars, Panic p)
      | Err e => Finished (a, vars, Err (fail_str e))
      | Ok variable_tokens =>
          io_bind (reload_loop_io (ord (name_set variable_tokens)) [] [] vars) (fun vr =>
            Finished (a, fst vr, lift_rt (snd vr)))
      end
  | CPurgeVar =>
      match tokenize_variable_list (pd_value arguments) with
      | Panic p => Finished (a, vars, Panic p)
      | Err e => Finished (a, vars, Err (fail_str e))
      | Ok variable_tokens =>
          io_bind (purge_loop_io (ord (name_set variable_tokens)) vars) (fun vr =>
            Finished (a, fst vr,
              match snd vr with
              | Ok _ => Ok (lit "Done", [])
              | Err e => Err (RuntimeError e)
              | Panic p => Panic p
              end))
      end
  | CHistCap =>
      match tokenize_int_list pr (pd_value arguments) 10 with
      | Panic p => Finished (a, vars, Panic p)
      | Err e => Finished (a, vars, Err (fail_str e))
      | Ok [] =>
          Ask GetMax (fun r =>
            Finished (a, vars,
              match max_of r with
              | Ok cap => Ok (show_Z cap, [])
              | Err e => Err (RuntimeError e)
              | Panic p => Panic p
              end))
      | Ok [integer] =>
          match validate_max_history_size (pd_value integer) with
          | Some m => Finished (a, vars, Err (input_error m (pd_pos integer)))
          | None =>
              Ask (SetMax (pd_value integer)) (fun r =>
                Finished (a, vars,
                  match done_of r with
                  | Ok _ => Ok (lit "Done", [])
                  | Err e => Err (RuntimeError e)
                  | Panic p => Panic p
                  end))
          end
      | Ok (first :: rest) => Finished (a, vars, Err (too_many first rest))
      end
  | _ =>
      let '(a', _, r) := run_command pr ord x c arguments a (mkEnv (Some vars) (Some some_handle)) in
      Finished (a', vars, r)
  end.
(** src/commands.rs:101-134 [execute_command] *)
Definition execute_io (pr : profile) (ord : list str -> list str) (x : executor)
           (alias_name arguments : positioned str) (a : args) (vars : vstore) : io command_answer :=
  match assoc (resolve_alias x (pd_value alias_name)) (x_commands x) with
  | Some c => command_io pr ord x c arguments a vars
  | None => Finished (a, vars, Err (no_such_command alias_name))
  end.

(** ** A line (src/main.rs) *)
(** src/main.rs:544-548 and 562-564 *)
Fixpoint touch_loop_io (names : list str) (id : Z) : io (outcome runtime_error unit) :=
  match names with
  | [] => Finished (Ok tt)
  | name :: rest =>
      io_bind (touch_io name id) (fun r =>
        match r with
        | Ok _ => touch_loop_io rest id
        | Err e => Finished (Err e)
        | Panic p => Finished (Panic p)
        end)
  end.
(** src/main.rs:534-587: everything after the line was recorded under [id] *)
Definition body_io (pr : profile) (ord : list str -> list str) (x : executor) (input : str) (id : Z)
           (a : args) (vars : vstore) : io (args * vstore * outcome failure str) :=
  match tokenize input (a_radix a) with
  | Panic p => Finished (a, vars, Panic p)
  | Err e => Finished (a, vars, Err (fail_parse e))
  | Ok (PCommand name command_args) =>
      io_bind (execute_io pr ord x name command_args a vars) (fun avr =>
        let '(a', vars', r) := avr in
        match r with
        | Ok (message, vars_touched) =>
            io_bind (touch_loop_io vars_touched id) (fun r =>
              Finished (a', vars', match lift_rt r with Ok _ => Ok message | Err e => Err e | Panic p => Panic p end))
        | Err e => Finished (a', vars', Err e)
        | Panic p => Finished (a', vars', Panic p)
        end)
  | Ok (PTokens tokens) =>
      io_bind (touch_loop_io (ord (token_variables tokens)) id) (fun r =>
        match r with
        | Err e => Finished (a, vars, Err (RuntimeError e))
        | Panic p => Finished (a, vars, Panic p)
        | Ok _ =>
            match tokens with
            | [] => Finished (a, vars, Ok [])
            | _ =>
                match syntax_tree_new tokens with
                | Panic p => Finished (a, vars, Panic p)
                | Err e => Finished (a, vars, Err (fail_syntax e))
                | Ok t =>
                    io_bind (tree_io pr a t id vars) (fun vr =>
                      Finished (a, fst vr,
                        match snd vr with
                        | Ok v => format_result a v
                        | Err e => Err e
                        | Panic p => Panic p
                        end))
                end
            end
        end)
  end.
(** The settings, the scrollback and the variables afterwards, and the reply. *)
Definition line_answer := (args * input_history * vstore * outcome failure str)%type.
(** src/main.rs:514-588 [calculate], with src/input_history.rs:69-86 [input_finished] *)
Definition line_io (pr : profile) (ord : list str -> list str) (x : executor) (input : str)
           (a : args) (h : input_history) (vars : vstore) : io line_answer :=
  match current_line h with
  | Panic p => Finished (a, h, vars, Panic p)
  | Err e => Finished (a, h, vars, Err (RuntimeError e))
  | Ok line =>
      let h' := mkIH (ih_internal h ++ [line]) (ih_db h) [Some []] 0 (ih_exhausted h) in
      Ask (AddInput line) (fun r =>
        match id_of r with
        | Ok id =>
            io_bind (body_io pr ord x input id a vars) (fun avr =>
              Finished (fst (fst avr), h', snd (fst avr), snd avr))
        | Err e => Finished (a, h', vars, Err (RuntimeError e))
        | Panic p => Finished (a, h', vars, Panic p)
        end)
  end.

(** ** Calls on a handle *)
(** One call of src/saved_data.rs on the handle [sd] (its content is the file as it is now). *)
Definition perform (c : call) (sd : saved_data) : saved_data * reply :=
  match c with
  | Open => (sd, RClosed)
  | AddInput text => let r := add_to_input_history text sd in (fst r, reply_of RId (snd r))
  | PrevInput => let r := get_prev_input_history sd in (fst r, reply_of RInput (snd r))
  | SetVariable name value id => let r := set_variable name value id sd in (fst r, reply_of (fun _ => RDone) (snd r))
  | TouchVariable name id => let r := touch_variable name id sd in (fst r, reply_of (fun _ => RDone) (snd r))
  | GetVariable name => let r := get_variable name sd in (fst r, reply_of RValue (snd r))
  | ClearVariable name => let r := clear_variable name sd in (fst r, reply_of (fun _ => RDone) (snd r))
  | GetMax => let r := get_max_history_size sd in (fst r, reply_of RMax (snd r))
  | SetMax size => let r := set_max_history_size size sd in (fst r, reply_of (fun _ => RDone) (snd r))
  end.
(** Nobody else moves until the computation is finished. *)
Fixpoint alone {A} (t : io A) (sd : saved_data) : saved_data * A :=
  match t with
  | Finished a => (sd, a)
  | Ask c k => let '(sd', r) := perform c sd in alone (k r) sd'
  end.

(** ** The programs and the file *)
(** A program waits for an event (or has ended), or is in the middle of a line. *)
Inductive seat := Resting (u : ui) (e : ending) | Working (u : ui) (t : io line_answer).
Record room := mkRoom { r_file : database; r_seat : nat -> option seat }.
(** A program starts; it receives an event; in the middle of a line, it makes its next call and goes on to the one
    after it. *)
Inductive turn := Enters (i : nat) (a : args) (database : option (list bool)) | Receives (i : nat) (ev : event) | Goes (i : nat).

Definition seated (f : nat -> option seat) (i : nat) (s : seat) : nat -> option seat :=
  fun j => if Nat.eqb j i then Some s else f j.
Definition with_db (u : ui) (db : option saved_data) : ui :=
  mkUi (u_args u) (u_vars u) db (u_inputs u) (u_line u) (u_count u).

(** src/main.rs:489-508: the output of a finished line, and the start of the next one *)
Definition answer_line (pr : profile) (tm : terminal) (u : ui) (ans : line_answer) : seat * list tcmd :=
  let '(a', h', vars', r) := ans in
  let u' := mkUi a' vars' (u_db u) h' (u_line u) (S (u_count u)) in
  match render r with
  | Panic p => (Resting u' (ending_of (Crashed p)), [])
  | Err e => (Resting u' (ending_of (Failed e)), [])
  | Ok text =>
      let '(u'', out, st) := start_line pr tm u' in
      (Resting u'' (ending_of st), print_output (a_alternate_screen (u_args u)) text ++ out)
  end.
Definition go_on (pr : profile) (tm : terminal) (u : ui) (t : io line_answer) : seat * list tcmd :=
  match t with
  | Finished ans => answer_line pr tm u ans
  | Ask _ _ => (Working u t, [])
  end.
(** src/main.rs:456-488: Enter, up to the first call *)
Definition begin_line (pr : profile) (ord : nat -> list str -> list str) (x : executor) (tm : terminal) (u : ui)
  : seat * list tcmd :=
  match display pr (a_alternate_screen (u_args u)) true (u_line u) (u_inputs u) with
  | Err e => (Resting u (ending_of (Failed e)), [])
  | Panic p => (Resting u (ending_of (Crashed p)), [])
  | Ok (_, out1) =>
      match current_line (u_inputs u) with
      | Err e => (Resting u (ending_of (Failed e)), out1)
      | Panic p => (Resting u (ending_of (Crashed p)), out1)
      | Ok input =>
          let '(s, out) := go_on pr tm u (line_io pr (ord (u_count u)) x input (u_args u) (u_inputs u) (u_vars u)) in
          (s, out1 ++ out)
      end
  end.
Definition enter (ev : event) : bool := match ev with EvKey KEnter _ => true | _ => false end.

(** src/main.rs:149-161 (start), 163-508 (an event) *)
Definition room_step (pr : profile) (ord : nat -> nat -> list str -> list str) (x : executor)
           (tm : nat -> terminal) (tn : turn) (w : room) : room * list tcmd :=
  match tn with
  | Enters i a wanted =>
      match r_seat w i with
      | Some _ => (w, [])
      | None =>
          match wanted with
          | None =>
              let '(u, out, st) := interactive_start pr (tm i) a None in
              (mkRoom (r_file w) (seated (r_seat w) i (Resting u (ending_of st))), out)
          | Some faults =>
              match sd_open faults (r_file w) with
              | (file, Ok sd) =>
                  let '(u, out, st) := interactive_start pr (tm i) a (Some sd) in
                  (mkRoom file (seated (r_seat w) i (Resting u (ending_of st))), out)
              | (file, _) => (mkRoom file (r_seat w), [])
              end
          end
      end
  | Receives i ev =>
      match r_seat w i with
      | Some (Resting u Running) =>
          match enter ev, u_db u with
          | true, Some sd =>
              let '(s, out) := begin_line pr (ord i) x (tm i) (with_file (r_file w) u) in
              (mkRoom (r_file w) (seated (r_seat w) i s), out)
          | _, _ =>
              let '(u', out, st) := ui_step pr (ord i) x (tm i) ev (with_file (r_file w) u) in
              (mkRoom (file_of (r_file w) u') (seated (r_seat w) i (Resting u' (ending_of st))), out)
          end
      | _ => (w, [])
      end
  | Goes i =>
      match r_seat w i with
      | Some (Working u (Ask c k)) =>
          match u_db u with
          | None => (w, [])
          | Some sd =>
              let '(sd', r) := perform c (mkSD (r_file w) (sd_pos sd) (sd_faults sd)) in
              let '(s, out) := go_on pr (tm i) (with_db u (Some sd')) (k r) in
              (mkRoom (sd_db sd') (seated (r_seat w) i s), out)
          end
      | _ => (w, [])
      end
  end.
Fixpoint room_run (pr : profile) (ord : nat -> nat -> list str -> list str) (x : executor)
         (tm : nat -> terminal) (turns : list turn) (w : room) : room :=
  match turns with
  | [] => w
  | tn :: rest => room_run pr ord x tm rest (fst (room_step pr ord x tm tn w))
  end.
