(** SpecMain.v -- whole runs of the program, and runs one after the other. *)
From Verif Require Import Base Position Num TokenTypes Errors Token SavedData Variables InputHistory
  SyntaxTree Commands Calculate Editor Sessions Main SpecEval SpecHistory SpecEditor SpecCalc SpecSession.
From Coq Require Import String.
Local Open Scope list_scope.

(** The file is one the program made: none yet, or what some calls by any number of sessions left. *)
Definition made_file (d : database) : Prop := exists w, reachable w /\ w_file w = d.
(** The run is meant to use the database: it is interactive, not told --no-db, and the data
    directory is configured and there. *)
Definition uses_database (o : options) (m : machine) : Prop :=
  o_input o = None /\ o_no_db o = false /\ m_root m = RootSet /\ m_directory m = true.
(** A session can start: no database is wanted or configured, or its directory is there. *)
Definition database_ready (o : options) (m : machine) : Prop :=
  o_no_db o = true \/ m_root m = RootUnset \/ (m_root m = RootSet /\ m_directory m = true).
(** The database works: no call fails for reasons outside the program. *)
Definition database_works (m : machine) : Prop := ~ In true (m_faults m).
(** The terminal obeys when it is set up / given back. *)
Definition terminal_starts (o : options) (m : machine) : Prop :=
  m_enable_raw m = true /\ (a_alternate_screen (o_args o) = true -> m_enter_screen m = true).
Definition terminal_obeys (m : machine) : Prop := m_leave_screen m = true /\ m_disable_raw m = true.
(** The run is over. *)
Definition ended (e : ending) : Prop := exists status, exit_status e = Some status.

(** Everything the session knows is on disk, with the same value. *)
Definition all_saved (s : env) : Prop := forall y v, remembered s y v -> stored s y v.
(** The lines that can be typed without the history running over its capacity. *)
Definition room_for (d : database) (n : nat) : Prop :=
  exists cap, capacity d cap /\ (Z.of_nat (List.length (inputs_of d) + n) <= cap)%Z.
Definition is_histcap (radix : N) (input : str) : Prop :=
  exists arguments, is_command radix input (lit "histcap") arguments.
(** The lines submitted in a session so far, oldest first. *)
Definition submitted (u : ui) : list str := ih_internal (u_inputs u).
(** The stored inputs, oldest first, without their identifiers. *)
Definition texts_of (d : database) : list str := map snd (inputs_of d).
