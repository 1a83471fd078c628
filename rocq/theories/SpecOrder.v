(** SpecOrder.v -- runs that differ only in how the hash sets of the program happen to be iterated (src/commands.rs:265, 345;
    src/main.rs:553: the standard library seeds every hash set at random). *)
From Verif Require Import Base Position Num TokenTypes Errors Token SavedData Variables InputHistory
  SyntaxTree Commands Calculate Editor Main SpecCalc SpecData.
From Coq Require Import String.
Local Open Scope list_scope.

(** The line is a /reloadvar that names at least two different variables. *)
Definition reloads_several (line : str) : Prop :=
  exists radix arguments names y1 y2, is_command radix line (lit "reloadvar") arguments /\ variable_list arguments names /\
    List.In y1 names /\ List.In y2 names /\ y1 <> y2.
(** The same result up to the choice of iteration order: everything but the order of the commands sent to the terminal. *)
Definition same_but_order (r1 r2 : outside) : Prop :=
  out_file r1 = out_file r2 /\ out_stdout r1 = out_stdout r2 /\ out_stderr r1 = out_stderr r2 /\
  out_modes r1 = out_modes r2 /\ out_ending r1 = out_ending r2.
