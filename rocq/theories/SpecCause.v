(** SpecCause.v -- when SQLite refuses a call of a program. *)
From Verif Require Import Base Errors SavedData Editor Main Together Interleave.
From Coq Require Import String.
Local Open Scope list_scope.

(** SQLite is going to refuse the next call of program [i] (the disk is full, the file locked, ...). *)
Definition refused (i : nat) (w : room) : Prop :=
  exists u sd, (r_seat w i = Some (Resting u Running) \/ exists t, r_seat w i = Some (Working u t)) /\
    u_db u = Some sd /\ hd false (sd_faults sd) = true.
