(** Together.v -- several interactive programs (src/main.rs:149-511) open at the same time on one database file.
    Each has its own settings, variables, scrollback, line and terminal; the file is shared.  They take turns event by
    event: while one handles an event the others do nothing (finer interleavings, call by call, of the database
    calls themselves are in Sessions.v).  A program that ended keeps its seat, with the state it ended in. *)
From Verif Require Import Base Position Num TokenTypes Errors Token SavedData Variables InputHistory
  SyntaxTree Commands Calculate Editor Main Io.
From Coq Require Import String.
Local Open Scope list_scope.

(** The shared file, and for each program its state and how it stands. *)
Record desk := mkDesk { k_file : database; k_seat : nat -> option (ui * ending) }.
(** A program starts, with a database (whose calls fail as the list says) or without; or it receives an event. *)
Inductive move := Begin (i : nat) (a : args) (database : option (list bool)) | Press (i : nat) (ev : event).

(** A program's handle reads and writes the shared file: the content it finds there is the present one
    (src/saved_data.rs:108-113: a handle is a connection and a scrollback position). *)
Definition with_file (d : database) (u : ui) : ui :=
  mkUi (u_args u) (u_vars u)
       (match u_db u with Some sd => Some (mkSD d (sd_pos sd) (sd_faults sd)) | None => None end)
       (u_inputs u) (u_line u) (u_count u).
Definition sit (f : nat -> option (ui * ending)) (i : nat) (s : ui * ending) : nat -> option (ui * ending) :=
  fun j => if Nat.eqb j i then Some s else f j.

(** src/main.rs:149-161 (start), 163-508 (an event); [tm i] and [ord i] are the terminal and the hash-set orders of
    program [i]. *)
Definition desk_step (pr : profile) (ord : nat -> nat -> list str -> list str) (x : executor)
           (tm : nat -> terminal) (mv : move) (k : desk) : desk * list tcmd :=
  match mv with
  | Begin i a wanted =>
      match k_seat k i with
      | Some _ => (k, [])
      | None =>
          match wanted with
          | None =>
              let '(u, out, st) := interactive_start pr (tm i) a None in
              (mkDesk (k_file k) (sit (k_seat k) i (u, ending_of st)), out)
          | Some faults =>
              match sd_open faults (k_file k) with
              | (file, Ok sd) =>
                  let '(u, out, st) := interactive_start pr (tm i) a (Some sd) in
                  (mkDesk file (sit (k_seat k) i (u, ending_of st)), out)
              | (file, _) => (mkDesk file (k_seat k), [])
              end
          end
      end
  | Press i ev =>
      match k_seat k i with
      | Some (u, Running) =>
          let '(u', out, st) := ui_step pr (ord i) x (tm i) ev (with_file (k_file k) u) in
          (mkDesk (file_of (k_file k) u') (sit (k_seat k) i (u', ending_of st)), out)
      | _ => (k, [])
      end
  end.
Fixpoint desk_run (pr : profile) (ord : nat -> nat -> list str -> list str) (x : executor)
         (tm : nat -> terminal) (moves : list move) (k : desk) : desk :=
  match moves with
  | [] => k
  | mv :: rest => desk_run pr ord x tm rest (fst (desk_step pr ord x tm mv k))
  end.
