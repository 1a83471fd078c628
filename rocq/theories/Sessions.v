(** Sessions.v -- several running instances of the program sharing one database file.
    SQLite serialises the transactions of src/saved_data.rs: each API call (one transaction or
    one statement) acts atomically on the shared file.  A session is a [SavedData] handle
    (src/saved_data.rs:108-113), i.e. a scrollback position. *)
From Verif Require Import Base Position Num TokenTypes Errors SavedData.
Local Open Scope list_scope.

(** The public methods of [SavedData]: open (123), add_to_input_history (243),
    get_prev_input_history (363), set_variable (393), touch_variable (412), get_variable (428),
    clear_variable (473), get_max_history_size (497), set_max_history_size (507). *)
Inductive call :=
| Open
| AddInput (text : str)
| PrevInput
| SetVariable (name : str) (value : Q) (id : Z)
| TouchVariable (name : str) (id : Z)
| GetVariable (name : str)
| ClearVariable (name : str)
| GetMax
| SetMax (size : Z).
Inductive reply :=
| RDone
| RId (id : Z)
| RInput (line : option str)
| RValue (value : option Q)
| RMax (size : Z)
| RError (e : runtime_error)
| RCrash (p : panic)
| RClosed. (* the session has no open handle: nothing was called *)

(** The file, and for every session the scrollback position of its handle (if open). *)
Record world := mkWorld { w_file : database; w_pos : nat -> option (option Z) }.
Definition set_pos (f : nat -> option (option Z)) (i : nat) (p : option Z) : nat -> option (option Z) :=
  fun j => if Nat.eqb j i then Some p else f j.

Definition reply_of {A} (f : A -> reply) (o : outcome runtime_error A) : reply :=
  match o with Ok a => f a | Err e => RError e | Panic p => RCrash p end.
Definition after {A} (w : world) (i : nat) (f : A -> reply) (r : saved_data * outcome runtime_error A)
  : world * reply :=
  (mkWorld (sd_db (fst r)) (set_pos (w_pos w) i (sd_pos (fst r))), reply_of f (snd r)).

(** One API call by session [i]; [fault] says that SQLite reports an external error. *)
Definition step (i : nat) (fault : bool) (c : call) (w : world) : world * reply :=
  match c with
  | Open =>
      match sd_open [fault] (w_file w) with
      | (file, Ok sd) => (mkWorld file (set_pos (w_pos w) i (sd_pos sd)), RDone)
      | (file, Err e) => (mkWorld file (w_pos w), RError e)
      | (file, Panic p) => (mkWorld file (w_pos w), RCrash p)
      end
  | _ =>
      match w_pos w i with
      | None => (w, RClosed)
      | Some pos =>
          let sd := mkSD (w_file w) pos [fault] in
          match c with
          | Open => (w, RClosed)
          | AddInput text => after w i RId (add_to_input_history text sd)
          | PrevInput => after w i RInput (get_prev_input_history sd)
          | SetVariable name value id => after w i (fun _ => RDone) (set_variable name value id sd)
          | TouchVariable name id => after w i (fun _ => RDone) (touch_variable name id sd)
          | GetVariable name => after w i RValue (get_variable name sd)
          | ClearVariable name => after w i (fun _ => RDone) (clear_variable name sd)
          | GetMax => after w i RMax (get_max_history_size sd)
          | SetMax size => after w i (fun _ => RDone) (set_max_history_size size sd)
          end
      end
  end.

(** A schedule: who calls what, and whether SQLite fails.  Sessions crash by no longer
    appearing in the schedule; a crash inside a call is the call either having failed or having
    succeeded (SQLite's atomic commit). *)
Definition schedule := list (nat * bool * call).
Fixpoint run (sch : schedule) (w : world) : world * list reply :=
  match sch with
  | [] => (w, [])
  | (i, fault, c) :: rest =>
      let '(w1, r) := step i fault c w in
      let '(w2, rs) := run rest w1 in
      (w2, r :: rs)
  end.

(** No file content yet, nobody running. *)
Definition fresh : world := mkWorld empty_db (fun _ => None).
