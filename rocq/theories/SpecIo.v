(** SpecIo.v -- what a failing terminal may and may not do to a run. *)
From Verif Require Import Base SavedData Editor Main.
Local Open Scope list_scope.

(** [short] is how [long] begins. *)
Definition begins {A} (short long : list A) : Prop := exists more, long = short ++ more.
(** The uses of the terminal between [faults] and [faults']: all of them worked. *)
Definition all_worked (faults faults' : list bool) : Prop :=
  exists n, faults' = skipn n faults /\ ~ In true (firstn n faults).
(** ... all but the last of them worked, and that one failed. *)
Definition last_failed (faults faults' : list bool) : Prop :=
  exists n, faults' = skipn (S n) faults /\ ~ In true (firstn n faults) /\ nth n faults false = true.
(** The database handle a session starts with, if it gets that far. *)
Definition opens (o : options) (m : machine) (db : option saved_data) : Prop :=
  (o_no_db o = true /\ db = None) \/ (o_no_db o = false /\ exists file, open_database m = (file, inr (Ok db))).
