(** PropertiesCause.v -- runtime errors have a cause outside the program (C105). *)
From Verif Require Import Base Position Num TokenTypes Errors Token Operations SavedData Variables InputHistory
  SyntaxTree Commands Calculate Editor Sessions Main Io Together Interleave SpecLex SpecGrammar SpecEval SpecHistory SpecSyntax SpecEditor SpecCalc SpecSession SpecCommands SpecData SpecMain SpecTogether SpecInterleave SpecCause.
From Verif Require Import ProofsCalc ProofsCalc4 ProofsMain ProofsTogether ProofsInterleave ProofsInterleave2 ProofsInterleave3 ProofsInterleave9 ProofsCause ProofsCause2 ProofsCause3
  PropertiesCalc PropertiesEditor PropertiesTogether PropertiesInterleave PropertiesInterleave2.
From Coq Require Import String Lia.
Local Open Scope nat_scope.
Local Open Scope list_scope.

(** ** C105 *)
(** A line that is processed while SQLite may refuse any call and while other programs use the file: a refused call is the
    last one the line makes, and the reply is that error; and if the reply is a runtime error then either the last call was
    refused, or the record of the line had been removed from the history since the program made it. *)
Theorem C105_line : forall pr ord x tm before between d i mods u u' e out line,
  (forall i n, iterates (ord i n)) -> Forall proper_turn (before ++ between) -> made_file d ->
  let w := room_run pr ord x tm before (empty_room d) in
  let after turns := room_run pr ord x tm turns w in
  processes pr ord x tm w i mods between u u' e out -> shown (u_inputs u) = Ok line ->
  exists r, replied u u' e out r /\
    (forall first rest, line_turns i mods between = first ++ Goes i :: rest -> refused i (after first) ->
       rest = [] /\ r = Err (RuntimeError SqliteError)) /\
    (forall re, r = Err (RuntimeError re) ->
       (re = SqliteError /\ refused i (after (Receives i (EvKey KEnter mods) :: between))) \/
       (re = SqliteConstraint /\ exists first mid id, Receives i (EvKey KEnter mods) :: between = first ++ Goes i :: mid /\
          history_event_of (Goes i) (after first) = [Recorded i line] /\
          (exists old, inputs_of (r_file (after (first ++ [Goes i]))) = old ++ [(id, line)]) /\
          ~ In id (ids_of (r_file (after (first ++ Goes i :: mid)))))).
Proof.
  intros pr ord x tm before between d i mods u u' e out line Ho P M w. apply Forall_app in P as (Pb & P).
  assert (Sd : sound_room w) by (apply sound_turns; [exact Ho|exact Pb|apply sound_nobody, M]).
  intros after Pr L. exact (line_cause pr ord x tm Ho w i mods between u u' e out line Sd P Pr L).
Qed.
Print Assumptions C105_line.

(** A program that has ended with an error ended so at some turn at which it was running, because its window was too narrow (or
    a row or column number did not fit in 16 bits), or something was pasted, or SQLite refused to read the history. *)
Theorem C105_stopped : forall pr ord x tm turns d i u e,
  (forall i n, iterates (ord i n)) -> Forall proper_turn turns -> made_file d ->
  r_seat (room_run pr ord x tm turns (empty_room d)) i = Some (Resting u (FailedWith e)) ->
  exists first tn rest, turns = first ++ tn :: rest /\
    let w := room_run pr ord x tm first (empty_room d) in
    (forall u0 e0, r_seat w i = Some (Resting u0 e0) -> e0 = Running) /\
    exists re, e = Runtime re /\
      (display_failure re \/
       (re = paste_error /\ tn = Receives i EvPaste) \/
       (re = SqliteError /\ (exists mods, tn = Receives i (EvKey KUp mods)) /\ refused i w)).
Proof.
  intros pr ord x tm turns d i u e Ho P M S.
  destruct (stopped_because pr ord x tm Ho turns (empty_room d) (sound_nobody d M) ltac:(discriminate) P i u e S) as [S0|(first & tn & rest & E & R & C)]; [discriminate S0|].
  exists first, tn, rest. split; [exact E|]. split; [exact R|exact C].
Qed.
Print Assumptions C105_stopped.

(** Program 0 works on [$x + 1], a variable it does not remember; SQLite allows it to open the file and to record the line, and
    refuses the next call. *)
Definition before6 : list turn := Enters 0 a0 (Some [false; false; true]) :: removelast (types 0 (lit "$x + 1")).
Lemma proper6 : Forall proper_turn (before6 ++ [Goes 0]).
Proof. unfold before6. cbn [app]. constructor; [exact a0_ok|]. apply Forall_app. split; [|constructor; [exact Logic.I|constructor]]. apply Forall_forall. intros tn I. assert (J : In tn (types 0 (lit "$x + 1"))) by (revert I; generalize (types 0 (lit "$x + 1")); intros l; induction l as [|a [|b l] IH]; cbn [removelast In]; tauto). pose proof (proper_types 0 (lit "$x + 1")) as K. rewrite Forall_forall in K. exact (K tn J). Qed.
Example C105_example : Forall proper_turn (before6 ++ [Goes 0]) /\ made_file empty_db /\ processed before6 [Goes 0] /\
  shown (u_inputs (the_ui (after_turns before6) 0)) = Ok (lit "$x + 1") /\
  refused 0 (after_turns (before6 ++ [Receives 0 (EvKey KEnter 0); Goes 0])) /\
  ~ refused 0 (after_turns (before6 ++ [Receives 0 (EvKey KEnter 0)])) /\
  firstn 3 (last_output (after_turns (before6 ++ [Receives 0 (EvKey KEnter 0); Goes 0])) 0) = print_output false (lit "Runtime Error: sqlite").
Proof.
  split; [exact proper6|]. split; [exact made_empty|]. split; [apply line_processed; vm_compute; reflexivity|]. split; [vm_compute; reflexivity|].
  assert (K : forall w (b : bool), busy w 0 = true -> (match r_seat w 0 with Some (Working u _) => match u_db u with Some sd => hd false (sd_faults sd) | None => false end | _ => false end) = b -> if b then refused 0 w else ~ refused 0 w).
  { intros w b B. unfold busy in B. destruct (r_seat w 0) as [[u e|u t]|] eqn:Sk; try discriminate B. destruct (u_db u) as [sd|] eqn:Ed.
    - intros E. destruct b.
      + exists u, sd. split; [right; eauto|]. auto.
      + intros (u1 & sd1 & [S1|(t1 & S1)] & E1 & H1); [congruence|]. rewrite Sk in S1. injection S1 as <- _. congruence.
    - intros <- (u1 & sd1 & [S1|(t1 & S1)] & E1 & H1); [congruence|]. rewrite Sk in S1. injection S1 as <- _. congruence. }
  split; [apply (K _ true); vm_compute; reflexivity|]. split; [apply (K _ false); vm_compute; reflexivity|]. vm_compute; reflexivity.
Qed.
(** Program 1 starts, and ends when it reads the history: SQLite refuses. *)
Example C105_stopped_example : Forall proper_turn [Enters 1 a0 (Some [false; false; true]); Receives 1 (EvKey (KChar 55%N) 0); Receives 1 (EvKey KEnter 0); Goes 1; Enters 0 a0 (Some [false; true]); Receives 0 (EvKey KUp 0)] /\
  the_ending (after_turns [Enters 1 a0 (Some [false; false; true]); Receives 1 (EvKey (KChar 55%N) 0); Receives 1 (EvKey KEnter 0); Goes 1; Enters 0 a0 (Some [false; true]); Receives 0 (EvKey KUp 0)]) 0 = FailedWith (Runtime SqliteError) /\
  the_ending (after_turns [Enters 1 a0 (Some [false; false; true]); Receives 1 EvPaste]) 1 = FailedWith (Runtime paste_error).
Proof. split; [repeat (constructor; [first [exact a0_ok|exact Logic.I]|]); constructor|]. split; vm_compute; reflexivity. Qed.
