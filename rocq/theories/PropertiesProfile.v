(** PropertiesProfile.v -- a release build does what a debug build does, unless the debug build crashes (C108). *)
From Verif Require Import Base Position Num TokenTypes Errors Token Operations SavedData Variables InputHistory
  SyntaxTree Commands Calculate Editor Sessions Main Io CommandLine SpecLex SpecEditor SpecHistory SpecCalc SpecSession SpecMain SpecSize SpecReport SpecProfile.
From Verif Require Import ProofsMain ProofsCalc4 ProofsProfile PropertiesEval PropertiesCalc PropertiesSession PropertiesEditor PropertiesMain.
From Coq Require Import String Lia.
Local Open Scope nat_scope.
Local Open Scope list_scope.

(** ** C108 *)
(** The program, its terminal failing whenever it likes: built either way it leaves the same file, prints the same, sends the
    same to the terminal, leaves it in the same mode and ends alike, unless the debug build crashes on an arithmetic overflow. *)
Theorem C108_builds_agree : forall ord o m evs faults,
  io_main Release ord o m evs faults = io_main Debug ord o m evs faults \/
  out_ending (io_main Debug ord o m evs faults) = Panicked ArithOverflow.
Proof. intros ord o m evs faults. destruct (agree_io_main ord o m evs faults) as [E|E]; auto. Qed.
Print Assumptions C108_builds_agree.

(** On a terminal that works, the reason is known: the two builds agree on the whole run, or there is a moment in it where the
    debug build crashes, because of a power to be computed to too many digits, or of a row beyond any terminal's. *)
Theorem C108_where_they_part : forall ord o m evs, o_input o = None ->
  main Release ord o m evs = main Debug ord o m evs \/
  exists first rest, evs = first ++ rest /\ parting ord o m first /\
    out_ending (main Debug ord o m first) = Panicked ArithOverflow /\ main Debug ord o m evs = main Debug ord o m first.
Proof. intros ord o m evs Hi. destruct (agree_main ord o m evs Hi) as [E|E]; auto. Qed.
Print Assumptions C108_where_they_part.

(** One line of input from the command line. *)
Theorem C108_one_shot : forall ord o m evs input, o_input o = Some input ->
  main Release ord o m evs = main Debug ord o m evs \/
  (overflowing (o_args o) input /\ out_ending (main Debug ord o m evs) = Panicked ArithOverflow).
Proof.
  intros ord o m evs input Hi. rewrite !main_unfold, Hi. destruct (agree_one_shot (ord 0) (o_args o) input) as [(G & ->)| ->]; [right; split; [exact G|reflexivity]|left; reflexivity].
Qed.
Print Assumptions C108_one_shot.

(** One line in a session: the same answer, the same variables, the same file, the same settings. *)
Theorem C108_line : forall ord x input se, ~ overflowing (s_args se) input ->
  calculate Release ord x input se = calculate Debug ord x input se.
Proof. intros ord x input se N. destruct (agree_calculate ord x input se) as [(G & _)|E]; [destruct (N G)|auto]. Qed.
Print Assumptions C108_line.
(** So for all lines, if the two precision settings sum to less than 255, and at any precision for commands and for lines without
    powers and roots. *)
Corollary C108_usual : forall ord x input se,
  (a_precision (s_args se) + a_extra_precision (s_args se) < 255)%N \/
  (forall ts, is_expression (a_radix (s_args se)) input ts -> free_of_powers ts) ->
  calculate Release ord x input se = calculate Debug ord x input se.
Proof.
  intros ord x input se H. apply C108_line. intros (G & ts & T & N). destruct H as [H|H]; [lia|]. exact (N (H ts T)).
Qed.
Print Assumptions C108_usual.

(** The whole process, from the words of the command line to the exit status. *)
Theorem C108_process : forall ord words m evs,
  process Release ord words m evs = process Debug ord words m evs \/
  exists w, fst (process Debug ord words m evs) = Some w /\ out_ending w = Panicked ArithOverflow.
Proof.
  intros ord words m evs. unfold process. destruct (parse_args words) as [o| |]; [|left; reflexivity..]. cbv zeta. cbn [fst].
  destruct (o_input o) as [input|] eqn:Hi.
  - destruct (C108_one_shot ord o m evs input Hi) as [->|(_ & E)]; [left; reflexivity|right; eauto].
  - destruct (C108_where_they_part ord o m evs Hi) as [->|(first & rest & _ & _ & E & Q)]; [left; reflexivity|right]. rewrite Q. eauto.
Qed.
Print Assumptions C108_process.

(** A crash of the release build is never its own: the debug build crashes in that run as well. *)
Theorem C108_no_worse : forall ord o m evs faults p, out_ending (io_main Release ord o m evs faults) = Panicked p ->
  exists q, out_ending (io_main Debug ord o m evs faults) = Panicked q.
Proof. intros ord o m evs faults p E. destruct (C108_builds_agree ord o m evs faults) as [Q|Q]; [rewrite Q in E|]; eauto. Qed.
Print Assumptions C108_no_worse.

(** Where they part, the release build goes on: with 255 digits in all the debug build crashes at a power and the other answers. *)
Definition digits255 : options := mkOptions (mkArgs 10 false None 200 55 false false true) (Some (lit "2^2")) false.
Theorem C108_parting_is_real : exists ord o m evs,
  out_ending (main Debug ord o m evs) = Panicked ArithOverflow /\ out_ending (main Release ord o m evs) = Succeeded /\
  out_stdout (main Release ord o m evs) = lit "4" ++ [c_newline].
Proof. exists (fun _ => order), digits255, (machine0 empty_db), []. vm_compute. repeat split. Qed.
Print Assumptions C108_parting_is_real.

Example C108_example :
  let line := [EvKey (KChar 49%N) 0; EvKey (KChar 47%N) 0; EvKey (KChar 51%N) 0; EvKey KEnter 0] in
  main Release (fun _ => order) plain (machine0 empty_db) line = main Debug (fun _ => order) plain (machine0 empty_db) line /\
  In (Print (lit "0.33333")) (out_terminal (main Release (fun _ => order) plain (machine0 empty_db) line)) /\
  ~ overflowing a0 (lit "2^0.5") /\ overflowing (o_args digits255) (lit "2^2") /\
  parting (fun _ => order) (mkOptions (o_args digits255) None false) (machine0 empty_db) [EvKey (KChar 50%N) 0; EvKey (KChar 94%N) 0; EvKey (KChar 50%N) 0; EvKey KEnter 0].
Proof.
  cbv zeta. split; [vm_compute; reflexivity|]. split; [vm_compute; repeat (first [left; reflexivity|right])|].
  assert (Ov : overflowing (o_args digits255) (lit "2^2")).
  { split; [vm_compute; congruence|]. eexists. split; [vm_compute; reflexivity|]. intros F. eapply (proj1 (F _ (or_intror (or_introl eq_refl)))). reflexivity. }
  split; [intros (G & _); vm_compute in G; apply G; reflexivity|]. split; [exact Ov|].
  apply (at_a_power _ _ _ [EvKey (KChar 50%N) 0; EvKey (KChar 94%N) 0; EvKey (KChar 50%N) 0] 0
    (fst (fst (interactive Debug (fun _ => order) the_executor term80 (o_args digits255) (match snd (open_database (machine0 empty_db)) with inr (Ok d) => d | _ => None end) [EvKey (KChar 50%N) 0; EvKey (KChar 94%N) 0; EvKey (KChar 50%N) 0]))) (lit "2^2")).
  - exists the_executor, (fst (open_database (machine0 empty_db))), (match snd (open_database (machine0 empty_db)) with inr (Ok d) => d | _ => None end).
    split; [apply executor_new_ok|]. split; [vm_compute; reflexivity|reflexivity].
  - vm_compute. reflexivity.
  - exact Ov.
Qed.
