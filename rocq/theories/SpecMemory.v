(** SpecMemory.v -- what a program remembers, among other programs. *)
From Verif Require Import Base Token Operations InputHistory SyntaxTree Commands Calculate Editor Main Together Interleave SpecEditor SpecCalc.
From Coq Require Import String.
Local Open Scope list_scope.

(** The line, read under the radix, is neither an assignment to [y] nor a /purgevar or /reloadvar listing [y]. *)
Definition leaves_alone (radix : N) (line y : str) : Prop :=
  (forall ts n, is_expression radix line ts -> ~ assignment ts y n) /\
  (forall cmd xs, variable_command radix line cmd xs -> (cmd = lit "purgevar" \/ cmd = lit "reloadvar") -> ~ In y xs).
(** The state of the program in the seat, whether it waits, has ended or is in the middle of a line. *)
Definition state_of (s : seat) : ui := match s with Resting u _ => u | Working u _ => u end.
(** Every line program [i] submits during these turns leaves [y] alone. *)
Definition unaltered pr ord x tm (i : nat) (y : str) (turns : list turn) (w : room) : Prop :=
  forall before mods after u line, turns = before ++ Receives i (EvKey KEnter mods) :: after ->
    r_seat (room_run pr ord x tm before w) i = Some (Resting u Running) -> shown (u_inputs u) = Ok line ->
    leaves_alone (a_radix (u_args u)) line y.
(** The line, read under the radix, is an assignment to [y]. *)
Definition assigns (radix : N) (line y : str) : Prop := exists ts n, is_expression radix line ts /\ assignment ts y n.
(** Program [i] submits an assignment to [y] during these turns. *)
Definition submits_assignment pr ord x tm (i : nat) (y : str) (turns : list turn) (w : room) : Prop :=
  exists before mods after u line, turns = before ++ Receives i (EvKey KEnter mods) :: after /\
    r_seat (room_run pr ord x tm before w) i = Some (Resting u Running) /\ shown (u_inputs u) = Ok line /\
    assigns (a_radix (u_args u)) line y.
