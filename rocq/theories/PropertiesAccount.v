(** PropertiesAccount.v -- every saved variable is accounted for by a stored line (C110). *)
From Verif Require Import Base Position Num TokenTypes Errors Token SavedData Variables InputHistory
  SyntaxTree Commands Calculate Editor Sessions Main Io Together Interleave SpecLex SpecGrammar SpecEval SpecHistory SpecEditor SpecCalc SpecSession SpecData SpecMain SpecTogether SpecInterleave SpecCalls SpecAccount.
From Verif Require Import ProofsDb4 ProofsCalc4 ProofsCalc3 ProofsCalc8 ProofsMain ProofsInterleave ProofsInterleave3 ProofsAccount PropertiesCalc PropertiesEditor PropertiesSession PropertiesMain PropertiesInterleave.
From Coq Require Import String Lia.
Local Open Scope nat_scope.
Local Open Scope list_scope.

(** ** C110 *)
(** Whatever programs share the file, however their calls interleave and whichever of them SQLite refuses: at every moment
    every saved variable goes with a line that is stored in the file and that uses or assigns it. *)
Theorem C110_accounted : forall pr ord tm turns d, (forall i n, iterates (ord i n)) -> Forall proper_turn turns -> made_file d -> accounted d ->
  Forall accounted (room_files pr ord the_executor tm turns (empty_room d)).
Proof.
  intros pr ord tm turns d Ho P M A. destruct (books_open d M A) as (G & B). apply (books_run pr ord tm Ho turns G); [exact P|apply sound_nobody, M|].
  split; [exact B|]. intros i s [=].
Qed.
Print Assumptions C110_accounted.
(** A file nobody has written to yet is accounted for. *)
Lemma empty_accounted : accounted empty_db.
Proof. split; [intros y q k (r & [] & _)|intros k text []]. Qed.
(** In particular its name can be read, letter for letter, in a stored line. *)
Theorem C110_name_in_a_line : forall pr ord tm turns, (forall i n, iterates (ord i n)) -> Forall proper_turn turns ->
  Forall (fun d => forall y q k, saved d y q k -> exists text, In (k, text) (inputs_of d) /\ stands_in y text) (room_files pr ord the_executor tm turns (empty_room empty_db)).
Proof.
  intros pr ord tm turns Ho P. eapply Forall_impl; [|apply (C110_accounted pr ord tm turns empty_db Ho P made_empty empty_accounted)]. cbn. intros d (A & B) y q k H.
  destruct (A y q k H) as (text & I). destruct (B k text I) as (radix & Hr & U). exists text. split; [exact I|]. eapply used_stands; [exact Hr|]. eapply U, H.
Qed.
Print Assumptions C110_name_in_a_line.
(** And there are never more saved variables than dollar signs in the stored lines. *)
Theorem C110_few_variables : forall pr ord tm turns names, (forall i n, iterates (ord i n)) -> Forall proper_turn turns -> NoDup names ->
  Forall (fun d => (forall y, In y names -> exists q k, saved d y q k) -> List.length names <= all_dollars (inputs_of d)) (room_files pr ord the_executor tm turns (empty_room empty_db)).
Proof.
  intros pr ord tm turns names Ho P Nd. eapply Forall_impl; [|apply (C110_accounted pr ord tm turns empty_db Ho P made_empty empty_accounted)]. cbn. intros d A. apply accounted_few; assumption.
Qed.
Print Assumptions C110_few_variables.

Definition rows (w : room) : list (str * Z) := map (fun r => (v_name r, v_used r)) (d_vars (r_file w)).
(** Two programs: [race] leaves $x with the second line; then the first uses it, and the second lowers the capacity to one
    line, so that only what the last use and the last line account for stays. *)
Definition more : list turn := types 0 (lit "$y = $x") ++ [Goes 0; Goes 0; Goes 0; Goes 0].
Definition less : list turn := types 1 (lit "/histcap 2") ++ [Goes 1; Goes 1].
Example C110_example : Forall proper_turn (race ++ more ++ less) /\ made_file empty_db /\ accounted empty_db /\
  rows (after_turns race) = [(lit "$x", 2%Z)] /\ inputs_of (r_file (after_turns race)) = [(1%Z, lit "$x = 5"); (2%Z, lit "$x = 7")] /\
  rows (after_turns (race ++ more)) = [(lit "$x", 3%Z); (lit "$y", 3%Z)] /\
  inputs_of (r_file (after_turns (race ++ more ++ less))) = [(3%Z, lit "$y = $x"); (4%Z, lit "/histcap 2")] /\
  rows (after_turns (race ++ more ++ less)) = [(lit "$x", 3%Z); (lit "$y", 3%Z)] /\
  all_dollars (inputs_of (r_file (after_turns (race ++ more ++ less)))) = 2.
Proof.
  split.
  { apply Forall_app. split; [exact (proj1 C88_example)|]. unfold more, less. repeat (apply Forall_app; split); try apply proper_types; repeat constructor. }
  split; [exact made_empty|]. split; [exact empty_accounted|]. repeat split; vm_compute; reflexivity.
Qed.
(** The data layer alone does not ensure it: a program that passed another number to it would break it. *)
Definition unrelated : schedule := [(0, false, Open); (0, false, AddInput (lit "1 + 1")); (0, false, SetVariable (lit "$x") (2 # 1)%Q 1%Z)].
Lemma letter_stands line y c : stands_in y line -> In c y -> In c line.
Proof. intros (b & a & ->) I. apply in_or_app. right. apply in_or_app. left. exact I. Qed.
Example C110_not_the_tables : made_file (w_file (fst (run unrelated fresh))) /\ ~ accounted (w_file (fst (run unrelated fresh))).
Proof.
  split.
  - exists (fst (run unrelated fresh)). split; [apply reachable_run; [exists []; split; [intros ? ? ? ? ? []|reflexivity]|]|reflexivity]. intros i f y q id I. cbn in I. repeat (destruct I as [I|I]; [try discriminate I; injection I as _ _ <- <- _; vm_compute; reflexivity|]). destruct I.
  - intros (_ & B). destruct (B 1%Z (lit "1 + 1")) as (radix & Hr & U); [vm_compute; left; reflexivity|].
    assert (Sv : saved (w_file (fst (run unrelated fresh))) (lit "$x") (2 # 1)%Q 1%Z) by (vm_compute; eexists; split; [left; reflexivity|]; repeat split).
    pose proof (used_stands radix _ _ Hr (U _ _ Sv)) as St. pose proof (letter_stands _ _ 36%N St ltac:(left; reflexivity)) as I. vm_compute in I. repeat (destruct I as [I|I]; [discriminate I|]). destruct I.
Qed.
