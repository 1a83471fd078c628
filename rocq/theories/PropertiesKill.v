(** PropertiesKill.v -- C82: the program killed at any moment. *)
From Verif Require Import Base Position Num TokenTypes Errors Token SavedData Variables InputHistory
  SyntaxTree Commands Calculate Editor Sessions Main Kill SpecGrammar SpecEval SpecHistory SpecEditor SpecCalc SpecSession SpecData SpecMain SpecIo SpecKill.
From Verif Require Import ProofsCalc4 ProofsCalc8 ProofsCalm ProofsData ProofsMain ProofsMain2 ProofsKill ProofsKill2 ProofsKill3 PropertiesCalc PropertiesEditor PropertiesMain.
From Coq Require Import String Lia.
Local Open Scope nat_scope.
Local Open Scope list_scope.

(** ** C82 *)
(** What is found on disk after the program was killed while it handled the event [ev]: a file the program can have made; the one
    from before the event, or the one from after it, or -- if the event was Enter -- the line is stored and each variable is as
    it was once the line was stored, or as it would have been in the end. *)
Theorem C82_killed_at_any_moment : forall pr ord o m before ev k d0 sd u cmds,
  (forall n, iterates (ord n)) -> valid_settings (o_args o) -> made_file (m_file m) -> database_works m ->
  uses_database o m -> terminal_starts o m ->
  sd_open (m_faults m) (m_file m) = (d0, Ok sd) ->
  interactive pr ord the_executor (m_terminal m) (o_args o) (Some sd) before = (u, cmds, Waiting) ->
  let earlier := out_file (main pr ord o m before) in
  let later := out_file (main pr ord o m (before ++ [ev])) in
  let found := killed pr ord the_executor (m_terminal m) (m_file m) u ev k in
  made_file found /\
  (found = earlier \/ found = later \/
   exists mods line, ev = EvKey KEnter mods /\ shown (u_inputs u) = Ok line /\ half_done earlier line found later).
Proof. exact killed_step. Qed.
Print Assumptions C82_killed_at_any_moment.

(** Within the capacity: every line submitted before is there; the last line, the one whose Enter was being handled, may or may not
    be; and each variable has the value it had before that line or the one it would have had after it. *)
Theorem C82_at_most_the_last_line : forall pr ord o m before ev k d0 sd u cmds u' cmds' st,
  (forall n, iterates (ord n)) -> valid_settings (o_args o) -> made_file (m_file m) -> database_works m ->
  uses_database o m -> terminal_starts o m ->
  sd_open (m_faults m) (m_file m) = (d0, Ok sd) ->
  interactive pr ord the_executor (m_terminal m) (o_args o) (Some sd) before = (u, cmds, Waiting) ->
  interactive pr ord the_executor (m_terminal m) (o_args o) (Some sd) (before ++ [ev]) = (u', cmds', st) ->
  (forall line radix, In line (submitted u) \/ shown (u_inputs u) = Ok line -> ~ is_histcap radix line) ->
  room_for d0 (List.length (submitted u) + 1) ->
  let found := killed pr ord the_executor (m_terminal m) (m_file m) u ev k in
  (texts_of found = texts_of (m_file m) ++ submitted u \/
   exists mods line, ev = EvKey KEnter mods /\ shown (u_inputs u) = Ok line /\ texts_of found = texts_of (m_file m) ++ submitted u ++ [line]) /\
  (forall y, (forall v, on_disk found y v <-> var_value (ui_env u) y v) \/ (forall v, on_disk found y v <-> var_value (ui_env u') y v)).
Proof. exact killed_roomy. Qed.
Print Assumptions C82_at_most_the_last_line.

(** Only Enter can make a difference. *)
Theorem C82_other_events_leave_the_file : forall pr ord x tm file u ev k, (forall mods, ev <> EvKey KEnter mods) ->
  killed pr ord x tm file u ev k = file_of file u.
Proof.
  intros pr ord x tm file u ev k N. pose proof (quiet_step pr ord x tm ev (with_faults (kill_after k) u) N) as F. unfold killed, file_of.
  unfold with_faults in F at 1. cbn [u_db] in F. destruct (u_db u) as [sd|], (u_db (fst (fst (ui_step pr ord x tm ev (with_faults (kill_after k) u))))) as [sd'|]; cbn in F; try contradiction; auto.
Qed.
Print Assumptions C82_other_events_leave_the_file.

(** Why a kill is a failing call: whatever calls fail while an event is handled, none is made after the first that does. *)
Theorem C82_nothing_after_a_failure : forall pr ord x tm a sd before ev faults u cmds sd', (forall n, iterates (ord n)) -> valid_settings a ->
  program_file (sd_db sd) -> ~ In true (sd_faults sd) ->
  interactive pr ord x tm a (Some sd) before = (u, cmds, Waiting) ->
  u_db (fst (fst (ui_step pr ord x tm ev (with_faults faults u)))) = Some sd' ->
  all_worked faults (sd_faults sd') \/ last_failed faults (sd_faults sd').
Proof.
  intros pr ord x tm a sd before ev F u cmds sd' Ho Ha Pf Cm E D.
  destruct (run_working _ _ _ _ _ _ _ _ _ Ho Ha Pf Cm E) as (((_ & Cu & _) & _) & _).
  pose proof (step_lock pr ord x tm ev _ _ (with_faults_twin F u Cu)) as L. unfold lock_ui in L. rewrite D in L.
  assert (Du : u_db (with_faults F u) = match u_db u with Some s => Some (mkSD (sd_db s) (sd_pos s) F) | None => None end) by reflexivity.
  rewrite Du in L. clear Du. destruct (u_db u) as [s|].
  - destruct L as [(_ & W & _)|Fl]; [left; exact W|right; exact Fl].
  - destruct L as [(_ & W & _)|Fl]; [destruct W|destruct Fl].
Qed.
Print Assumptions C82_nothing_after_a_failure.

(** Killed while it opens the file: it has been opened or not.  And whatever was found, the next run opens it, and finds the same
    lines and variables in it. *)
Theorem C82_opening : forall file k d0 sd, sd_open [] file = (d0, Ok sd) -> fst (sd_open (kill_after k) file) = file \/ fst (sd_open (kill_after k) file) = d0.
Proof.
  intros file k d0 sd. unfold sd_open, sd_call. cbn [sd_faults sd_db sd_pos]. destruct k as [|k]; cbn [kill_after repeat app sd_faults].
  - intros _. left. reflexivity.
  - unfold kill_after. cbn [repeat app]. destruct (tx_open file) as [[front d']|e|p]; intros E; apply pair_equal_spec in E as [<- E]; cbn; auto.
Qed.
Print Assumptions C82_opening.
Theorem C82_next_run : forall found faults, made_file found -> ~ In true faults ->
  exists d1 sd1, sd_open faults found = (d1, Ok sd1) /\ program_file (sd_db sd1) /\ texts_of (sd_db sd1) = texts_of found /\ forall y v, on_disk (sd_db sd1) y v <-> on_disk found y v.
Proof.
  intros found faults M N. destruct (sd_open faults found) as [d1 o] eqn:E. destruct (open_made _ _ _ _ M E) as [(H & _)|(_ & sd & -> & Ed & Pf & I & S & _)].
  - destruct faults; cbn in H; [discriminate H|]. injection H as ->. destruct N. left. reflexivity.
  - exists d1, sd. split; [reflexivity|]. rewrite Ed. split; [exact Pf|]. split; [unfold texts_of; rewrite I; reflexivity|].
    intros y v. rewrite !saved_disk. split; intros (k & K); exists k; apply S; exact K.
Qed.
Print Assumptions C82_next_run.

(** "$x = 2", "$y = 3" and Enter on "/purgevar $x $y", killed after 0, 1, 2 and 3 calls; Enter on "$z = $x" killed after 1, 2 and 3. *)
Definition before_enter (line : str) : list event := typing_lines [lit "$x = 2"; lit "$y = 3"] ++ keys_of line.
Example C82_example :
  let sd := match sd_open [] empty_db with (_, Ok sd) => sd | (d, _) => mkSD d None [] end in
  let state line := fst (fst (interactive Debug (fun _ => order) the_executor term80 a0 (Some sd) (before_enter line))) in
  let found line k := killed Debug (fun _ => order) the_executor term80 empty_db (state line) enter_key k in
  let seen line k := (texts_of (found line k), map (fun r => v_name r) (d_vars (found line k))) in
  let two := [lit "$x = 2"; lit "$y = 3"] in let purge := lit "/purgevar $x $y" in let set := lit "$z = $x" in
  snd (interactive Debug (fun _ => order) the_executor term80 a0 (Some sd) (before_enter purge)) = Waiting /\
  snd (interactive Debug (fun _ => order) the_executor term80 a0 (Some sd) (before_enter set)) = Waiting /\
  shown (u_inputs (state purge)) = Ok purge /\
  seen purge 0 = (two, [lit "$x"; lit "$y"]) /\ seen purge 1 = (two ++ [purge], [lit "$x"; lit "$y"]) /\
  seen purge 2 = (two ++ [purge], [lit "$y"]) /\ seen purge 3 = (two ++ [purge], []) /\
  seen set 1 = (two ++ [set], [lit "$x"; lit "$y"]) /\ seen set 3 = (two ++ [set], [lit "$x"; lit "$y"]) /\ seen set 4 = (two ++ [set], [lit "$x"; lit "$y"; lit "$z"]).
Proof. repeat (split; [vm_compute; reflexivity|]). vm_compute; reflexivity. Qed.
