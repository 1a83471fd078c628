(** SpecScroll.v -- scrolling back through the history while other programs use the file. *)
From Verif Require Import Base Position Num TokenTypes Errors Token SavedData Variables InputHistory
  SyntaxTree Commands Calculate Editor Sessions Main Together SpecHistory SpecEditor SpecMain SpecTogether.
From Coq Require Import String.
Local Open Scope list_scope.

(** In these moves program [i] receives nothing but Up keys; the others do anything. *)
Definition only_up (i : nat) (moves : list move) : Prop :=
  forall mv, In mv moves -> match mv with
    | Press j ev => j = i -> exists mods, ev = EvKey KUp mods
    | Begin _ _ _ => True
    end.
(** How many events program [i] receives. *)
Definition presses (i : nat) (moves : list move) : nat :=
  List.length (filter (fun mv => match mv with Press j _ => Nat.eqb j i | Begin _ _ _ => false end) moves).
(** These moves, made since program [i] started, leave it on a new line: they are none, or end with its Enter. *)
Definition at_new_line (i : nat) (moves : list move) : Prop :=
  moves = [] \/ exists earlier mods, moves = earlier ++ [Press i (EvKey KEnter mods)].
(** Of the inputs a file had, all but the newest [n] are gone from the file [d]. *)
Definition gone_beyond (n : nat) (old : list (Z * str)) (d : database) : Prop :=
  forall e, In e (skipn n (rev old)) -> ~ In (fst e) (ids_of d).
