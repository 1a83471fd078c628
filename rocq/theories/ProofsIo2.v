(** ProofsIo2.v -- whole runs on a failing terminal (C80). *)
From Verif Require Import Base Position Num TokenTypes Errors Token SavedData Variables InputHistory
  SyntaxTree Commands Calculate Editor Sessions Main Io SpecEval SpecHistory SpecEditor SpecCalc SpecSession SpecMain SpecIo.
From Verif Require Import ProofsCalc ProofsCalc4 ProofsCalc8 ProofsCommands2 ProofsMain ProofsMain2 ProofsMain3 ProofsRestart3 ProofsIo.
From Coq Require Import String Lia.
Local Open Scope list_scope.

Lemma io_main_unfold pr ord o m evs f : o_input o = None -> io_main pr ord o m evs f =
      if negb (m_enable_raw m) then mkOutside (m_file m) [] [] [] as_found (FailedWith TerminalFailed)
      else if a_alternate_screen (o_args o) && negb (m_enter_screen m)
      then mkOutside (m_file m) [] [] [] (mkModes (negb (m_disable_raw m)) false) (FailedWith TerminalFailed)
      else
        let '(file, a, cmds, e) := io_interactive_calc pr ord the_executor o m evs f in
        mkOutside file [] [] cmds (restore m a (mkModes true (a_alternate_screen (o_args o))) e) e.
Proof. intros I. unfold io_main. rewrite executor_new_ok, I. reflexivity. Qed.

Lemma interactive_screen pr ord tm a db evs : a_alternate_screen (u_args (fst (fst (interactive pr ord the_executor tm a db evs)))) = a_alternate_screen a.
Proof.
  pose proof (interactive_keeps (fun a' => a_alternate_screen a' = a_alternate_screen a) pr ord tm a db evs) as K.
  destruct (interactive _ _ _ _ _ _ _) as [[u cmds] st]. apply K; [|reflexivity].
  intros ord0 input se se' r C E. rewrite (line_screen _ _ _ _ _ _ C). exact E.
Qed.
Lemma failed_in f f' : last_failed f f' -> In true f.
Proof.
  intros (n & _ & _ & N). destruct (nth_in_or_default n f false) as [X|X]; [rewrite N in X; exact X|congruence].
Qed.

(** The comparison at the level of the program. *)
Lemma io_calc_spec pr ord o m evs f : o_input o = None -> terminal_starts o m ->
  let r := io_main pr ord o m evs f in
  r = main pr ord o m evs \/
  (In true f /\ out_ending r = FailedWith TerminalFailed /\ out_stdout r = [] /\ out_stderr r = [] /\ (terminal_obeys m -> out_modes r = as_found) /\
   exists read, begins read evs /\ begins (out_terminal r) (out_terminal (main pr ord o m read)) /\
     (out_file r = out_file (main pr ord o m read) \/
      exists before mods db u0 l echo, read = before ++ [EvKey KEnter mods] /\ out_file r = out_file (main pr ord o m before) /\
        out_ending (main pr ord o m before) = Running /\ opens o m db /\
        interactive pr ord the_executor (m_terminal m) (o_args o) db before = (u0, out_terminal (main pr ord o m before), Waiting) /\
        display pr (a_alternate_screen (o_args o)) true (u_line u0) (u_inputs u0) = Ok (l, echo) /\
        begins (out_terminal r) (out_terminal (main pr ord o m before) ++ echo))).
Proof.
  intros I (A & B). cbv zeta. rewrite (io_main_unfold _ _ _ _ _ _ I).
  assert (U : forall evs, main pr ord o m evs = let '(file, a, cmds, e) := interactive_calc pr ord the_executor o m evs in
        mkOutside file [] [] cmds (restore m a (mkModes true (a_alternate_screen (o_args o))) e) e).
  { intros e. rewrite main_unfold, I, A. cbn [negb].
    replace (a_alternate_screen (o_args o) && negb (m_enter_screen m)) with false; [reflexivity|]. destruct (a_alternate_screen (o_args o)); [rewrite B by reflexivity|]; reflexivity. }
  rewrite A. cbn [negb].
  replace (a_alternate_screen (o_args o) && negb (m_enter_screen m)) with false by (destruct (a_alternate_screen (o_args o)); [rewrite B by reflexivity|]; reflexivity).
  unfold io_interactive_calc.
  destruct (if o_no_db o then _ else _) as [file [e|[db|e|p]]] eqn:O; try (left; rewrite U; unfold interactive_calc; rewrite O; reflexivity).
  assert (Op : opens o m db).
  { unfold opens. destruct (o_no_db o); [left; split; [reflexivity|congruence]|right; split; [reflexivity|exists file; exact O]]. }
  assert (U' : forall evs, main pr ord o m evs = let '(u, cmds, st) := interactive pr ord the_executor (m_terminal m) (o_args o) db evs in
        mkOutside (file_of file u) [] [] cmds (restore m (u_args u) (mkModes true (a_alternate_screen (o_args o))) (ending_of st)) (ending_of st)).
  { intros e. rewrite U. unfold interactive_calc. rewrite O. destruct (interactive pr ord the_executor (m_terminal m) (o_args o) db e) as [[u cmds] st]. reflexivity. }
  clear U. pose proof (io_interactive_spec pr ord the_executor (m_terminal m) (o_args o) db evs f) as Sp.
  destruct (io_interactive pr ord the_executor (m_terminal m) (o_args o) db evs f) as [[[f' u'] sent] e].
  destruct Sp as [(_ & W)|(Fl & -> & read & R1 & R2 & R3)].
  - left. rewrite U'. destruct (interactive pr ord the_executor (m_terminal m) (o_args o) db evs) as [[u1 out] st]. destruct W as (-> & -> & ->). reflexivity.
  - right. split; [exact (failed_in _ _ Fl)|]. cbn [out_ending out_stdout out_stderr out_modes out_terminal out_file]. split; [reflexivity|]. split; [reflexivity|]. split; [reflexivity|].
    assert (Sc : a_alternate_screen (u_args u') = a_alternate_screen (o_args o)).
    { destruct R3 as [(_ & ->)|(before & mods & u0 & out0 & tail & _ & Rb & (_ & ->) & _)]; [apply interactive_screen|].
      change u0 with (fst (fst (u0, out0, Waiting))). rewrite <- Rb. apply interactive_screen. }
    split.
    { intros (L & D). cbn [restore]. rewrite Sc, L, D. destruct (a_alternate_screen (o_args o)); reflexivity. }
    exists read. split; [exact R1|]. rewrite (U' read). destruct (interactive pr ord the_executor (m_terminal m) (o_args o) db read) as [[u1 out1] st1] eqn:E1.
    cbn [fst snd] in R2, R3. cbn [out_terminal out_file]. split; [exact R2|].
    destruct R3 as [(R3 & _)|(before & mods & u0 & out0 & tail & -> & Rb & (R3 & _) & -> & l & echo & D & T)].
    + left. unfold file_of. rewrite R3. reflexivity.
    + right. exists before, mods, db, u0, l, echo. rewrite (U' before), Rb. cbn [out_terminal out_file out_ending ending_of].
      split; [reflexivity|]. split; [unfold file_of; rewrite R3; reflexivity|]. split; [reflexivity|]. split; [exact Op|]. split; [reflexivity|].
      split; [|apply begins_app, T]. rewrite <- D. f_equal.
      pose proof (interactive_screen pr ord (m_terminal m) (o_args o) db before) as Sb. rewrite Rb in Sb. symmetry. exact Sb.
Qed.

Lemma sound_terminal pr ord o m evs f : ~ In true f -> io_main pr ord o m evs f = main pr ord o m evs.
Proof.
  intros F. destruct (o_input o) as [input|] eqn:I.
  - assert (X : snd (io_use f) = true) by (destruct f as [|[|] f]; [reflexivity|destruct F; left; reflexivity|reflexivity]).
    unfold io_main, main. rewrite executor_new_ok, I, X. destruct (one_shot _ _ _ _); reflexivity.
  - destruct (m_enable_raw m) eqn:A; [|rewrite io_main_unfold, main_unfold, I, A by exact I; reflexivity].
    destruct (a_alternate_screen (o_args o) && negb (m_enter_screen m)) eqn:B; [rewrite io_main_unfold, main_unfold, I, A, B by exact I; reflexivity|].
    assert (T : terminal_starts o m) by (split; [exact A|]; intros X; rewrite X in B; destruct (m_enter_screen m); [reflexivity|discriminate B]).
    destruct (io_calc_spec pr ord o m evs f I T) as [E|(X & _)]; [exact E|destruct (F X)].
Qed.

(** The failure costs at most the last line. *)
Lemma at_most_the_last pr ord o m evs f : o_input o = None ->
  exists read processed, begins read evs /\ (processed = read \/ exists mods, read = processed ++ [EvKey KEnter mods]) /\
    out_file (io_main pr ord o m evs f) = out_file (main pr ord o m processed).
Proof.
  intros I. destruct (m_enable_raw m) eqn:A.
  2:{ exists [], []. split; [apply begins_nil|]. split; [left; reflexivity|]. rewrite io_main_unfold, main_unfold, I, A by exact I. reflexivity. }
  destruct (a_alternate_screen (o_args o) && negb (m_enter_screen m)) eqn:B.
  { exists [], []. split; [apply begins_nil|]. split; [left; reflexivity|]. rewrite io_main_unfold, main_unfold, I, A, B by exact I. reflexivity. }
  assert (T : terminal_starts o m) by (split; [exact A|]; intros X; rewrite X in B; destruct (m_enter_screen m); [reflexivity|discriminate B]).
  destruct (io_calc_spec pr ord o m evs f I T) as [E|(_ & _ & _ & _ & _ & read & R1 & _ & [R2|(before & mods & db & u0 & l & echo & -> & R2 & _)])].
  - exists evs, evs. split; [apply begins_refl|]. split; [left; reflexivity|]. rewrite E. reflexivity.
  - exists read, read. auto.
  - exists (before ++ [EvKey KEnter mods]), before. split; [exact R1|]. split; [right; exists mods; reflexivity|exact R2].
Qed.
Lemma io_file pr ord o m evs f : (forall n, iterates (ord n)) -> valid_settings (o_args o) -> made_file (m_file m) ->
  made_file (out_file (io_main pr ord o m evs f)).
Proof.
  intros Ho Ha M. destruct (o_input o) as [input|] eqn:I.
  - unfold io_main. rewrite executor_new_ok, I. destruct (one_shot _ _ _ _); try destruct (snd (io_use f)); exact M.
  - destruct (at_most_the_last pr ord o m evs f I) as (read & processed & _ & _ & ->). apply main_file; assumption.
Qed.
Lemma io_saved pr ord o m evs f d0 sd :
  (forall n, iterates (ord n)) -> valid_settings (o_args o) -> made_file (m_file m) -> database_works m ->
  uses_database o m -> terminal_starts o m -> sd_open (m_faults m) (m_file m) = (d0, Ok sd) ->
  exists read processed u cmds st, begins read evs /\ (processed = read \/ exists mods, read = processed ++ [EvKey KEnter mods]) /\
    interactive pr ord the_executor (m_terminal m) (o_args o) (Some sd) processed = (u, cmds, st) /\
    ((forall line radix, In line (submitted u) -> ~ is_histcap radix line) -> room_for d0 (List.length (submitted u)) ->
     texts_of (out_file (io_main pr ord o m evs f)) = texts_of (m_file m) ++ submitted u /\
     forall y v, on_disk (out_file (io_main pr ord o m evs f)) y v <-> var_value (ui_env u) y v).
Proof.
  intros Ho Ha M W Us T Op. destruct (at_most_the_last pr ord o m evs f (proj1 Us)) as (read & processed & R & P & ->).
  destruct (interactive pr ord the_executor (m_terminal m) (o_args o) (Some sd) processed) as [[u cmds] st] eqn:E.
  exists read, processed, u, cmds, st. split; [exact R|]. split; [exact P|]. split; [exact E|]. intros N Rm.
  exact (left_behind pr ord o m processed d0 sd u cmds st Ho Ha M W Us T Op E N Rm).
Qed.
(** One-shot runs: the answer could not be written. *)
Lemma io_one_shot pr ord o m evs f input : o_input o = Some input ->
  let r := io_main pr ord o m evs f in
  (r = main pr ord o m evs \/ (hd false f = true /\ exists p, out_ending r = Panicked p)) /\
  out_file r = m_file m /\ out_modes r = as_found.
Proof.
  intros I. cbv zeta. unfold io_main, main. rewrite executor_new_ok, I. unfold io_use. destruct (hd false f) eqn:H; cbn [negb snd].
  - destruct (one_shot _ _ _ _); (split; [|split; reflexivity]); [right; split; [reflexivity|eexists; reflexivity]|right; split; [reflexivity|eexists; reflexivity]|left; reflexivity|left; reflexivity].
  - destruct (one_shot _ _ _ _); (split; [left; reflexivity|split; reflexivity]).
Qed.
