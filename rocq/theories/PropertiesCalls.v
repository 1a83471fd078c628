(** PropertiesCalls.v -- how often a line uses the database (C104). *)
From Verif Require Import Base Position Num TokenTypes Errors Token Operations SavedData Variables InputHistory
  SyntaxTree Commands Calculate Editor Sessions Main Io Together Interleave SpecLex SpecGrammar SpecEval SpecHistory SpecSyntax SpecEditor SpecCalc SpecSession SpecCommands SpecData SpecMain SpecTogether SpecInterleave SpecCalls.
From Verif Require Import ProofsCalc ProofsCalc4 ProofsMain ProofsTogether ProofsInterleave ProofsInterleave2 ProofsInterleave3 ProofsInterleave9 ProofsCalls ProofsCalls2
  PropertiesCalc PropertiesEditor PropertiesTogether PropertiesInterleave PropertiesInterleave2.
From Coq Require Import String Lia.
Local Open Scope nat_scope.
Local Open Scope list_scope.

(** ** C104 *)
(** Whatever other programs do in between and whichever calls fail: while a program is working on a line, it cannot have
    made more than so many calls -- twice the number of dollar signs in the line, and one more if it is a command.  So a line
    with [n] dollar signs is completed by call number [2 * n + 1] at the latest, and a command by the one after it. *)
Theorem C104_few_calls : forall pr ord tm before between d i mods u line,
  (forall i n, iterates (ord i n)) -> Forall proper_turn before -> made_file d ->
  let w := room_run pr ord the_executor tm before (empty_room d) in
  r_seat w i = Some (Resting u Running) -> shown (u_inputs u) = Ok line ->
  throughout pr ord the_executor tm (midline i) between (fst (room_step pr ord the_executor tm (Receives i (EvKey KEnter mods)) w)) ->
  times_going i between <= 1 + 2 * dollars line /\ (~ command_line line -> times_going i between <= 2 * dollars line).
Proof.
  intros pr ord tm before between d i mods u line Ho P M w Sk L Th.
  assert (Sd : sound_room w) by (apply sound_turns; [exact Ho|exact P|apply sound_nobody, M]).
  assert (Hr : (2 <= a_radix (u_args u) <= 16)%N) by (destruct (proj2 Sd i _ Sk) as (_ & G); apply parts_of_good in G as ((G & _) & _); [|reflexivity]; exact G).
  exact (line_finishes pr ord tm Ho w i mods between u line Hr Sk L Th).
Qed.
Print Assumptions C104_few_calls.
(** The calls of a completed line, in any room: it is recorded, first and once; every variable in it is marked as used at
    most once; a variable is read at most once, and not at all if the program remembers it; an assigned variable is written at
    most once. *)
Theorem C104_calls : forall pr ord tm w i mods between u u' e out line,
  (forall i n, iterates (ord i n)) ->
  processes pr ord the_executor tm w i mods between u u' e out -> shown (u_inputs u) = Ok line ->
  calls_for (a_radix (u_args u)) line (u_vars u) (calls_of pr ord the_executor tm i (line_turns i mods between) w).
Proof. intros pr ord tm w i mods between u u' e out line Ho. apply line_makes, Ho. Qed.
Print Assumptions C104_calls.
(** The bound is reached: program 0 works on [10 * $x + $y] while program 1 assigns both variables; it is still working
    after four calls, and the fifth completes the line.  The command [/histcap] needs its two calls. *)
Definition calls_here := calls_of Debug (fun _ _ => order) the_executor (fun _ => term80).
Example C104_example : Forall proper_turn before0 /\ made_file empty_db /\
  processed before0 between0 /\ shown (u_inputs (the_ui (after_turns before0) 0)) = Ok (lit "10 * $x + $y") /\
  throughout Debug (fun _ _ => order) the_executor (fun _ => term80) (midline 0) between0 (after_turns (before0 ++ [Receives 0 (EvKey KEnter 0)])) /\
  times_going 0 between0 = 4 /\ dollars (lit "10 * $x + $y") = 2 /\ ~ command_line (lit "10 * $x + $y") /\
  calls_here 0 (line_turns 0 0 between0) (after_turns before0) =
    [AddInput (lit "10 * $x + $y"); TouchVariable (lit "$x") 3; TouchVariable (lit "$y") 3; GetVariable (lit "$x"); GetVariable (lit "$y")].
Proof.
  destruct (two_starts (skipn 2 (before0 ++ between0)) ltac:(vm_compute; reflexivity)) as (P & _).
  split; [exact (proj1 (proj1 (Forall_app _ before0 between0) P))|]. split; [exact made_empty|]. split; [apply line_processed; vm_compute; reflexivity|]. split; [vm_compute; reflexivity|].
  split; [apply busy_throughout; vm_compute; reflexivity|]. split; [vm_compute; reflexivity|]. split; [vm_compute; reflexivity|]. split; [|vm_compute; reflexivity].
  intros (pre & body & E & F). destruct pre as [|c pre]; [discriminate E|]. injection E as <- _. apply Forall_inv in F. destruct F as [F|[_ F]]; [discriminate F|]. apply F. reflexivity.
Qed.
Example C104_histcap_example : processed (before_line "/histcap") between5 /\ shown (u_inputs (the_ui (after_turns (before_line "/histcap")) 0)) = Ok (lit "/histcap") /\
  times_going 0 between5 = 1 /\ dollars (lit "/histcap") = 0 /\
  calls_here 0 (line_turns 0 0 between5) (after_turns (before_line "/histcap")) = [AddInput (lit "/histcap"); GetMax].
Proof. split; [apply line_processed; vm_compute; reflexivity|]. repeat split; vm_compute; reflexivity. Qed.
