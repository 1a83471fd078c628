(** SpecProfile.v -- where a debug build and a release build may part. *)
From Verif Require Import Base Position Num TokenTypes Errors Token SavedData Variables InputHistory
  SyntaxTree Commands Calculate Editor Main SpecLex SpecEditor SpecCalc SpecSize SpecReport.
From Coq Require Import String.
Local Open Scope nat_scope.
Local Open Scope list_scope.

(** The line is an expression with a [^] or a [sqrt] in it, and its powers would be computed to more digits than a byte can
    count. *)
Definition overflowing (a : args) (input : str) : Prop :=
  (256 <= a_precision a + a_extra_precision a + 1)%N /\
  exists ts, is_expression (a_radix a) input ts /\ ~ free_of_powers ts.
(** The row of the cursor, in the display that wraps long lines, is beyond what a terminal can be asked for. *)
Definition below_all_rows (l : line_state) : Prop := ~ fits_u16 (l_cursor l / (l_cols l - 2) + snd (l_start l)).

(** After these events the two builds part. *)
Inductive parting (ord : nat -> list str -> list str) (o : options) (m : machine) : list event -> Prop :=
| at_a_power : forall first mods u line, session_at Debug ord o m first u -> shown (u_inputs u) = Ok line -> overflowing (u_args u) line ->
    parting ord o m (first ++ [EvKey KEnter mods])
| at_a_row : forall evs u, session_at Debug ord o m evs u -> below_all_rows (u_line u) -> parting ord o m evs.
