(** PropertiesScroll.v -- C87: scrolling back while other programs use the same file. *)
From Verif Require Import Base Position Num TokenTypes Errors Token SavedData Variables InputHistory
  SyntaxTree Commands Calculate Editor Sessions Main Io Together SpecGrammar SpecEval SpecHistory SpecEditor SpecCalc SpecSession SpecData SpecMain SpecTogether SpecScroll.
From Verif Require Import ProofsDb4 ProofsCalc3 ProofsCalc4 ProofsCalc8 ProofsCalm ProofsSession ProofsSession2 ProofsMain ProofsTogether ProofsTogether2 ProofsScroll PropertiesCalc PropertiesEditor PropertiesSession PropertiesMain PropertiesTogether.
From Coq Require Import String Lia.
Local Open Scope nat_scope.
Local Open Scope list_scope.

(** ** C87 *)
(** The lines a program can recall are its own and, after those, the newest of the lines that were in the file when it
    started: whatever the other programs -- and its own failing database calls -- do to the file meanwhile, it never recalls a
    line submitted elsewhere, never skips one and never mixes up their order. *)
Theorem C87_recalled : forall pr ord x tm before i a faults u1 moves d u, (forall i n, iterates (ord i n)) ->
  Forall proper_move (before ++ Begin i a (Some faults) :: moves) -> made_file d ->
  let k0 := desk_run pr ord x tm before (empty_desk d) in
  let k1 := fst (desk_step pr ord x tm (Begin i a (Some faults)) k0) in
  let k := desk_run pr ord x tm moves k1 in
  k_seat k0 i = None -> sits k1 i u1 -> sits k i u ->
  exists n, n <= List.length (texts_of (k_file k0)) /\
    recorded (u_inputs u) = rev (submitted u) ++ firstn n (rev (texts_of (k_file k0))).
Proof.
  intros pr ord x tm before i a faults u1 moves d u Ho P M k0 k1 k N S1 S. apply Forall_app in P as [P Pm]. inversion Pm; subst.
  assert (Sd : sound_desk k0) by (apply sound_run; [assumption..|apply sound_empty, M]).
  destruct (scrolling_start pr ord x tm k0 i a faults u1 Sd N S1) as (Sc & _).
  assert (Sk : scrolling (inputs_of (k_file k0)) i k) by (apply scrolling_run; [assumption..|apply sound_step; assumption|exact Sc]).
  destruct (scrolling_seen _ _ _ _ Sk S) as (n & L & E & _). exists n. unfold texts_of. rewrite map_length. split; [exact L|]. unfold recorded. rewrite E. reflexivity.
Qed.
Print Assumptions C87_recalled.

(** Going up [m] times on a new line shows the [m]th of these lines: none is skipped, however the others' events come
    between the keys.  It stops earlier only when all older lines have been dropped from the file. *)
Theorem C87_up : forall pr ord x tm before i a faults u1 moves ups d u, (forall i n, iterates (ord i n)) ->
  Forall proper_move (before ++ Begin i a (Some faults) :: moves ++ ups) -> made_file d ->
  let k0 := desk_run pr ord x tm before (empty_desk d) in
  let k1 := fst (desk_step pr ord x tm (Begin i a (Some faults)) k0) in
  let k := desk_run pr ord x tm (moves ++ ups) k1 in
  k_seat k0 i = None -> sits k1 i u1 -> at_new_line i moves -> only_up i ups -> sits k i u ->
  let lines := rev (submitted u) ++ rev (texts_of (k_file k0)) in
  exists j, shown (u_inputs u) = Ok (nth j ([] :: lines) []) /\ j <= presses i ups /\ j <= List.length lines /\
    (j < presses i ups -> List.length (submitted u) <= j /\ gone_beyond (j - List.length (submitted u)) (inputs_of (k_file k0)) (k_file k)).
Proof. exact scroll_up. Qed.
Print Assumptions C87_up.

(** With working databases, and as long as the history is not full and its capacity not changed, all of them come back. *)
Theorem C87_all : forall pr ord tm before i a faults u1 moves ups d u, (forall i n, iterates (ord i n)) ->
  Forall proper_move (before ++ Begin i a (Some faults) :: moves ++ ups) -> Forall calm_move (before ++ Begin i a (Some faults) :: moves ++ ups) -> made_file d ->
  let k0 := desk_run pr ord the_executor tm before (empty_desk d) in
  let k1 := fst (desk_step pr ord the_executor tm (Begin i a (Some faults)) k0) in
  let k := desk_run pr ord the_executor tm (moves ++ ups) k1 in
  let new := all_news pr ord the_executor tm (moves ++ ups) k1 in
  k_seat k0 i = None -> sits k1 i u1 -> at_new_line i moves -> only_up i ups -> sits k i u ->
  (forall line radix, In line new -> ~ is_histcap radix line) -> room_for (k_file k1) (List.length new) ->
  let lines := rev (submitted u) ++ rev (texts_of (k_file k0)) in
  shown (u_inputs u) = Ok (nth (Nat.min (presses i ups) (List.length lines)) ([] :: lines) []).
Proof. exact scroll_all. Qed.
Print Assumptions C87_all.

(** Two programs.  The first submits 1 and 2, the second starts, the first submits 3, the second 9; the second then goes up
    four times, while the first submits 4 -- or shortens the history. *)
Definition earlier0 : list move := Begin 0 a0 (Some []) :: from 0 (typing_lines [lit "1"; lit "2"]).
Definition later0 : list move := from 0 (typing_lines [lit "3"]) ++ from 1 (typing_lines [lit "9"]).
Definition up : event := EvKey KUp 0.
Definition climb (meanwhile : str) (n : nat) : list move := Press 1 up :: from 0 (typing_lines [meanwhile]) ++ from 1 (repeat up n).
Definition seen (ups : list move) : option (outcome runtime_error str) :=
  let k := desk_run Debug (fun _ _ => order) the_executor (fun _ => term80) (earlier0 ++ Begin 1 a0 (Some []) :: later0 ++ ups) (empty_desk empty_db) in
  match k_seat k 1 with Some (u, Running) => Some (shown (u_inputs u)) | _ => None end.
Example C87_example :
  map (fun n => seen (climb (lit "4") n)) [0; 1; 2; 3] = map (fun t => Some (Ok t)) [lit "9"; lit "2"; lit "1"; lit "1"] /\
  map (fun n => seen (climb (lit "/histcap 1") n)) [0; 1; 3] = map (fun t => Some (Ok t)) [lit "9"; lit "9"; lit "9"] /\
  Forall proper_move (earlier0 ++ Begin 1 a0 (Some []) :: later0 ++ climb (lit "4") 3) /\
  Forall calm_move (earlier0 ++ Begin 1 a0 (Some []) :: later0 ++ climb (lit "4") 3) /\
  at_new_line 1 later0 /\ only_up 1 (climb (lit "4") 3) /\ presses 1 (climb (lit "4") 3) = 4.
Proof.
  split; [vm_compute; reflexivity|]. split; [vm_compute; reflexivity|]. split; [|split; [|split; [|split; [|vm_compute; reflexivity]]]].
  - repeat (apply Forall_app; split); repeat (constructor; try exact a0_ok; try exact I).
  - repeat (apply Forall_app; split); repeat (constructor; try exact I; try (cbn; tauto)).
  - right. exists (from 0 (typing_lines [lit "3"]) ++ from 1 [EvKey (KChar 57%N) 0]), 0%N. reflexivity.
  - intros mv M. vm_compute in M. repeat (destruct M as [<-|M]; [intros E; first [discriminate E|exists 0%N; reflexivity]|]). destruct M.
Qed.
