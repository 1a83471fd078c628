(** SpecNotation.v -- the same line in another radix. *)
From Verif Require Import Base Position Num TokenTypes Errors Token SavedData Variables InputHistory
  SyntaxTree Commands Calculate SpecGrammar SpecEval SpecCalc SpecCompose.
From Coq Require Import ZArith.
Local Open Scope list_scope.

(** The radix answers are given in. *)
Definition output_radix (a : args) : N := match a_convert_to_radix a with Some r => r | None => a_radix a end.
(** The settings agree on everything but the radix numbers are typed in (and the kind of screen). *)
Definition same_output (a a' : args) : Prop :=
  a_precision a = a_precision a' /\ a_extra_precision a = a_extra_precision a' /\ a_fractional a = a_fractional a' /\
  a_commas a = a_commas a' /\ a_upper a = a_upper a' /\ output_radix a = output_radix a'.
(** [v] can be written with finitely many digits. *)
Definition terminates (radix : N) (v : Q) : Prop :=
  exists k z, v * inject_Z (Z.of_N radix ^ Z.of_nat k) == inject_Z z.
