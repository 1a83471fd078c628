(** SpecAccount.v -- every saved variable is accounted for by a stored line. *)
From Verif Require Import Base SavedData Sessions SpecHistory SpecData SpecInterleave SpecCalls.
From Coq Require Import String.
Local Open Scope list_scope.

(** Every saved variable was used or assigned, last, by a line that is still in the file: the line, read in one of the radixes,
    mentions it, or is a "/reloadvar" that lists it, or assigns it.  All variables that go with one line are found in it
    in the same radix. *)
Definition accounted (d : database) : Prop :=
  (forall y q k, saved d y q k -> exists text, In (k, text) (inputs_of d)) /\
  forall k text, In (k, text) (inputs_of d) -> exists radix, (2 <= radix <= 16)%N /\
    forall y q, saved d y q k -> line_uses radix text y \/ line_assigns radix text y.

(** The name stands in the text. *)
Definition stands_in (y text : str) : Prop := exists before after, text = before ++ y ++ after.
(** The number of dollar signs in all stored lines. *)
Fixpoint all_dollars (inputs : list (Z * str)) : nat :=
  match inputs with [] => 0 | (_, text) :: rest => dollars text + all_dollars rest end.
