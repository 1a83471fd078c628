(** Kill.v -- an interactive program (src/main.rs:149-511) that is killed while it handles an event.
    The database calls it has made by then are done, each completely (SQLite's transactions), the others are not.
    After a failing call an event makes no further one (every call is followed by `?`, src/main.rs:390, 533, 546, 563,
    src/commands.rs:277, 357, 449, 461; proved as C82_nothing_after_a_failure), so that the file left by a program
    killed after its k-th call is the one it leaves if the next call fails. *)
From Verif Require Import Base Position Num TokenTypes Errors Token SavedData Variables InputHistory
  SyntaxTree Commands Calculate Editor Main.
From Coq Require Import String.
Local Open Scope list_scope.

Definition with_faults (faults : list bool) (u : ui) : ui :=
  mkUi (u_args u) (u_vars u)
       (match u_db u with Some sd => Some (mkSD (sd_db sd) (sd_pos sd) faults) | None => None end)
       (u_inputs u) (u_line u) (u_count u).
(** [k] calls work, the next one does not take place. *)
Definition kill_after (k : nat) : list bool := repeat false k ++ [true].
(** The file left by the program in state [u], killed during [ev] after [k] calls (or after the last one, if there
    are fewer); [file] is what it is without a database. *)
Definition killed (pr : profile) (ord : nat -> list str -> list str) (x : executor) (tm : terminal)
           (file : database) (u : ui) (ev : event) (k : nat) : database :=
  file_of file (fst (fst (ui_step pr ord x tm ev (with_faults (kill_after k) u)))).
