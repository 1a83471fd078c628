(** SpecCalls.v -- the database calls a program makes for a line. *)
From Verif Require Import Base Position Num TokenTypes Errors Token SavedData Variables InputHistory SyntaxTree Commands Calculate Editor Sessions Main Io Together Interleave
  SpecLex SpecGrammar SpecCalc SpecCommands SpecData SpecTogether SpecInterleave.
From Coq Require Import String.
Local Open Scope list_scope.

(** The calls program [i] makes during the turns. *)
Definition call_of (i : nat) (tn : turn) (w : room) : list call :=
  match tn with
  | Goes j => if Nat.eqb j i then match r_seat w i with Some (Working _ (Ask c _)) => [c] | _ => [] end else []
  | _ => []
  end.
Fixpoint calls_of (pr : profile) (ord : nat -> nat -> list str -> list str) (x : executor) (tm : nat -> terminal)
         (i : nat) (turns : list turn) (w : room) : list call :=
  match turns with
  | [] => []
  | tn :: rest => call_of i tn w ++ calls_of pr ord x tm i rest (fst (room_step pr ord x tm tn w))
  end.
(** How often program [i] got its turn to make a call. *)
Definition times_going (i : nat) (turns : list turn) : nat :=
  List.length (filter (fun tn => match tn with Goes j => Nat.eqb j i | _ => false end) turns).
(** The number of dollar signs in a line. *)
Definition dollars (line : str) : nat := List.length (filter (N.eqb 36) line).

(** Some of these names, none of them twice. *)
Definition some_of (names : str -> Prop) (l : list str) : Prop := NoDup l /\ forall y, In y l -> names y.
(** Calls a line may make when the program remembers the variables [vars]: it is recorded, and that is all; or, under the
    number [id] it was recorded with, an expression line marks every variable in it as used, at most once, and then reads
    every variable in the expression that is not remembered, at most once; and an assignment is then written. *)
Inductive calls_for (radix : N) (line : str) (vars : vstore) : list call -> Prop :=
| cf_nothing : calls_for radix line vars [AddInput line]
| cf_expression : forall ts id used read, is_expression radix line ts ->
    some_of (mentions ts) used -> some_of (fun y => mentions ts y /\ vs_get vars y = None) read ->
    calls_for radix line vars (AddInput line :: map (fun y => TouchVariable y id) used ++ map GetVariable read)
| cf_assignment : forall y p q rest id used read v, is_expression radix line (tk (TVariable y) p :: tk TAssign q :: rest) ->
    some_of (mentions (tk (TVariable y) p :: tk TAssign q :: rest)) used ->
    some_of (fun z => mentions rest z /\ vs_get vars z = None) read ->
    calls_for radix line vars (AddInput line :: map (fun y => TouchVariable y id) used ++ map GetVariable read ++ [SetVariable y v id])
| cf_reloadvar : forall arguments names id read used, is_command radix line (lit "reloadvar") arguments -> variable_list arguments names ->
    some_of (fun y => In y names) read -> some_of (fun y => In y names) used ->
    calls_for radix line vars (AddInput line :: map GetVariable read ++ map (fun y => TouchVariable y id) used)
| cf_purgevar : forall arguments names purged, is_command radix line (lit "purgevar") arguments -> variable_list arguments names ->
    some_of (fun y => In y names) purged ->
    calls_for radix line vars (AddInput line :: map ClearVariable purged)
| cf_histcap : forall arguments c, is_command radix line (lit "histcap") arguments ->
    (c = GetMax \/ exists n, integers arguments [n] /\ c = SetMax n) ->
    calls_for radix line vars [AddInput line; c].
