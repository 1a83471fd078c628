(** SpecKill.v -- what a program killed while it handles an Enter may leave. *)
From Verif Require Import Base SavedData SpecEval SpecHistory SpecSession SpecData.
Local Open Scope list_scope.

(** The line [line] was submitted to the program when the file was [before], and the file would have become [after]; it is [found]
    instead: the line is stored, as the newest, and every variable is as it was with the line just stored, or as
    it would have been in the end. *)
Definition half_done (before : database) (line : str) (found after : database) : Prop :=
  exists id noted, line_recorded before line id noted /\ same_history noted found /\
    forall y, (forall v, on_disk found y v <-> on_disk noted y v) \/ (forall v, on_disk found y v <-> on_disk after y v).
