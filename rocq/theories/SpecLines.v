(** SpecLines.v -- what a session comes to, from the lines submitted in it alone. *)
From Verif Require Import Base Position Num TokenTypes Errors Token SavedData Variables InputHistory
  SyntaxTree Commands Calculate Editor Main SpecEditor SpecSession SpecMain.
Local Open Scope nat_scope.
Local Open Scope list_scope.

(** The session after the lines, evaluated one after the other from the [n]-th on ([ord n] is the hash-set order there). *)
Fixpoint evaluated (pr : profile) (ord : nat -> list str -> list str) (x : executor) (n : nat) (lines : list str) (se : session) : session :=
  match lines with
  | [] => se
  | line :: rest => evaluated pr ord x (S n) rest (fst (calculate pr (ord n) x line (type_in line se)))
  end.
(** The session stands as if that had happened: the settings, the variables it holds, the database file. *)
Definition comes_to (se : session) (u : ui) : Prop :=
  s_args se = u_args u /\ e_vars (s_env se) = Some (u_vars u) /\ option_map sd_db (e_db (s_env se)) = option_map sd_db (u_db u).
