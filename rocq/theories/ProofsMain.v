(** ProofsMain.v -- whole runs: terminal, streams, file. *)
From Verif Require Import Base Position Num TokenTypes Errors Token SavedData Variables InputHistory
  SyntaxTree Commands Calculate Editor Sessions Main SpecGrammar SpecEval SpecHistory SpecEditor SpecCalc SpecSession SpecMain.
From Verif Require Import ProofsEditor2 ProofsEditor4 ProofsDb ProofsDb2 ProofsDb3 ProofsDb4 ProofsCalc4 ProofsCalc6 ProofsCalc8 ProofsCalc9 ProofsCalc10 ProofsCalm2 ProofsCommands2.
From Coq Require Import String Lia.
Local Open Scope list_scope.

Lemma main_unfold pr ord o m evs : main pr ord o m evs =
  match o_input o with
  | Some input =>
      match one_shot pr (ord 0) (o_args o) input with
      | Calculate.Stdout line => mkOutside (m_file m) (line ++ [c_newline]) [] [] as_found Succeeded
      | Stderr line => mkOutside (m_file m) [] (line ++ [c_newline]) [] as_found Succeeded
      | MainError e => mkOutside (m_file m) [] [] [] as_found (FailedWith (Runtime e))
      | Calculate.Crash p => mkOutside (m_file m) [] [] [] as_found (Panicked p)
      end
  | None =>
      if negb (m_enable_raw m) then mkOutside (m_file m) [] [] [] as_found (FailedWith TerminalFailed)
      else if a_alternate_screen (o_args o) && negb (m_enter_screen m)
      then mkOutside (m_file m) [] [] [] (mkModes (negb (m_disable_raw m)) false) (FailedWith TerminalFailed)
      else
        let '(file, a, cmds, e) := interactive_calc pr ord the_executor o m evs in
        mkOutside file [] [] cmds (restore m a (mkModes true (a_alternate_screen (o_args o))) e) e
  end.
Proof. unfold main. rewrite executor_new_ok. reflexivity. Qed.

(** the settings [interactive_calc] leaves have the same screen mode *)
Lemma calc_screen pr ord o m evs : let '(_, a, _, _) := interactive_calc pr ord the_executor o m evs in a_alternate_screen a = a_alternate_screen (o_args o).
Proof.
  unfold interactive_calc. destruct (if o_no_db o then _ else _) as [file [e|[db|e|p]]]; try reflexivity.
  pose proof (interactive_keeps (fun a => a_alternate_screen a = a_alternate_screen (o_args o)) pr ord (m_terminal m) (o_args o) db evs) as K.
  destruct (interactive _ _ _ _ _ _ _) as [[u cmds] st]. apply K; [|reflexivity].
  intros ord0 input se se' r C E. rewrite (line_screen _ _ _ _ _ _ C). exact E.
Qed.

Lemma given_back pr ord o m evs : terminal_obeys m -> ended (out_ending (main pr ord o m evs)) ->
  (forall p, out_ending (main pr ord o m evs) <> Panicked p) -> out_modes (main pr ord o m evs) = as_found.
Proof.
  intros (L & D) E N. rewrite main_unfold in *. destruct (o_input o) as [input|]; [destruct (one_shot _ _ _ _); reflexivity|].
  destruct (m_enable_raw m); cbn [negb] in *; [|reflexivity]. destruct (a_alternate_screen (o_args o) && negb (m_enter_screen m)); [cbn; rewrite D; reflexivity|].
  pose proof (calc_screen pr ord o m evs) as S. destruct (interactive_calc _ _ _ _ _ _) as [[[file a] cmds] e]. cbn [out_modes out_ending] in *.
  destruct E as (st & E). destruct e; try discriminate E; [|..|exfalso; eapply N; reflexivity]; cbn [restore raw alternate]; rewrite L, D, S; destruct (a_alternate_screen (o_args o)); reflexivity.
Qed.
Lemma held pr ord o m evs : o_input o = None -> terminal_starts o m ->
  (out_ending (main pr ord o m evs) = Running \/ exists p, out_ending (main pr ord o m evs) = Panicked p) ->
  out_modes (main pr ord o m evs) = mkModes true (a_alternate_screen (o_args o)).
Proof.
  intros I (A & B) E. rewrite main_unfold in *. rewrite I in *. rewrite A in *. cbn [negb] in *.
  destruct (a_alternate_screen (o_args o)) eqn:Q; [rewrite (B eq_refl) in *|]; cbn [negb andb] in *;
    destruct (interactive_calc _ _ _ _ _ _) as [[[file a] cmds] e]; cbn [out_modes out_ending] in *; destruct E as [-> |(p & ->)]; reflexivity.
Qed.

(** ** The file *)
Lemma open_made d faults d' o : made_file d -> sd_open faults d = (d', o) ->
  (hd_error faults = Some true /\ d' = d /\ o = Err SqliteError) \/
  (hd_error faults <> Some true /\ exists sd, o = Ok sd /\ sd_db sd = d' /\ program_file d' /\ inputs_of d' = inputs_of d /\
     (forall y q k, saved d' y q k <-> saved d y q k) /\ sd_faults sd = tl faults /\ sd_pos sd = last_id (inputs_of d')).
Proof.
  intros (w & R & <-) E. unfold sd_open, sd_call in E. cbn [sd_faults sd_db sd_pos] in E.
  assert (G : forall front d1, tx_open (w_file w) = Ok (front, d1) -> program_file d1).
  { intros front d1 T. exists (fst (run [(0, false, Open)] w)), 0. split; [apply reachable_run; [exact R|intros i f x q id [[=]|[]]]|].
    cbn [run]. unfold step, sd_open, sd_call. cbn [sd_faults sd_db sd_pos]. rewrite T. cbn. split; [unfold is_open, set_pos; cbn; discriminate|reflexivity]. }
  assert (K : exists front d1, tx_open (w_file w) = Ok (front, d1) /\ front = last_id (inputs_of d1) /\ inputs_of d1 = inputs_of (w_file w) /\ d_vars d1 = d_vars (w_file w)).
  { destruct (reachable_file w R) as [(F & _)|(st & Rp)].
    - rewrite F, open_empty. exists None, created. split; [reflexivity|]. split; [reflexivity|]. split; reflexivity.
    - rewrite (open_rep _ _ Rp), <- (rep_inputs _ _ Rp). eexists _, _. split; [reflexivity|]. auto. }
  destruct K as (front & d1 & T & Ef & Ei & Ev). pose proof (G _ _ T) as P. rewrite T in E.
  destruct faults as [|[|] fs]; cbn [tl hd_error] in *; apply pair_equal_spec in E as [<- <-]; [right|left; auto|right]; (split; [discriminate|]);
    (eexists; split; [reflexivity|]); cbn [sd_db sd_faults sd_pos]; (split; [reflexivity|]); (split; [exact P|]); (split; [exact Ei|]);
    (split; [|split; [reflexivity|exact Ef]]); intros y q k; unfold saved; rewrite Ev; reflexivity.
Qed.
(** without a database there never is one *)
Lemma start_line_db pr tm u : u_db (fst (fst (start_line pr tm u))) = u_db u.
Proof. unfold start_line. cbv zeta. destruct (display _ _ _ _ _) as [[? ?]|?|?]; reflexivity. Qed.
Lemma finish_line_none pr ord x tm u : (forall n, iterates (ord n)) -> ui_good u -> u_db u = None -> u_db (fst (fst (finish_line pr ord x tm u))) = None.
Proof.
  intros Ho (A & B & R) N. unfold finish_line. cbv zeta. destruct (display _ _ _ _ _) as [[l1 out1]|e|p]; [|exact N|exact N].
  destruct (current_line (u_inputs u)) as [input|e|p]; [|exact N|exact N].
  set (se := mkSession (u_args u) (Some (u_inputs u)) (mkEnv (Some (u_vars u)) (u_db u))).
  destruct (calculate pr (ord (u_count u)) x input se) as [se' r] eqn:C.
  pose proof (calculate_db _ _ _ _ _ _ _ (A : valid_settings (s_args se)) (B : env_ok (s_env se)) (Ho _) C) as (K & _). specialize (K N).
  destruct (render r) as [text|e|p]; cbn [fst u_db]; try exact K.
  match goal with |- context [start_line pr tm ?u0] => pose proof (start_line_db pr tm u0) as SI; destruct (start_line pr tm u0) as [[u'' out3] st] end.
  cbn [fst u_db] in *. congruence.
Qed.
Lemma ui_step_none pr ord x tm ev u : (forall n, iterates (ord n)) -> ui_good u -> u_db u = None -> u_db (fst (fst (ui_step pr ord x tm ev u))) = None.
Proof.
  intros Ho G N. unfold ui_step. pose proof (handle_event_file ev (u_line u) (u_inputs u) (u_db u)) as F.
  destruct (handle_event ev (u_line u) (u_inputs u) (u_db u)) as [[[l' h'] db'] act].
  assert (G' : forall l0, ui_good (mkUi (u_args u) (u_vars u) db' h' l0 (u_count u))) by (intros l0; destruct u; eapply good_file; [exact F|exact G]).
  rewrite N in F. destruct db' as [sd|]; [destruct F|].
  destruct act; try reflexivity.
  - destruct (display _ _ _ _ _) as [[l'' out]|e|p]; reflexivity.
  - apply finish_line_none; [exact Ho|apply G'|reflexivity].
Qed.
Lemma interactive_none pr ord x tm a evs : (forall n, iterates (ord n)) -> valid_settings a ->
  u_db (fst (fst (interactive pr ord x tm a None evs))) = None.
Proof.
  intros Ho Ha. unfold interactive.
  assert (K : ui_good (fst (fst (interactive_start pr tm a None))) /\ u_db (fst (fst (interactive_start pr tm a None))) = None).
  { split; [|unfold interactive_start; rewrite start_line_db; reflexivity]. apply start_line_good. split; [exact Ha|]. split; [split|].
    - intros m y v E. cbn in E. injection E as <-. discriminate.
    - intros sd E. discriminate E.
    - intros sd E. discriminate E. }
  assert (Run : forall evs u, ui_good u -> u_db u = None -> u_db (fst (fst (run_events pr ord x tm evs u))) = None).
  { induction evs0 as [|ev evs0 IH]; intros u G N; [exact N|]. cbn [run_events].
    pose proof (ui_step_good pr ord x tm ev u Ho G) as S. pose proof (ui_step_none pr ord x tm ev u Ho G N) as S2.
    destruct (ui_step pr ord x tm ev u) as [[u' out] st]. cbn [fst] in S, S2. destruct st; try exact S2.
    specialize (IH u' S S2). destruct (run_events pr ord x tm evs0 u') as [[u'' out'] st']. exact IH. }
  destruct (interactive_start pr tm a None) as [[u out] st]. cbn [fst] in K. destruct K as [K K2]. destruct st; try exact K2.
  specialize (Run evs u K K2). destruct (run_events pr ord x tm evs u) as [[u' out'] st']. exact Run.
Qed.

(** what a session leaves in the file is a program file *)
Lemma program_made d : program_file d -> made_file d.
Proof. intros (w & i & R & _ & E). exists w. auto. Qed.
Lemma main_file pr ord o m evs : (forall n, iterates (ord n)) -> valid_settings (o_args o) -> made_file (m_file m) ->
  made_file (out_file (main pr ord o m evs)).
Proof.
  intros Ho Ha Hf. rewrite main_unfold. destruct (o_input o) as [input|]; [destruct (one_shot _ _ _ _); exact Hf|].
  destruct (m_enable_raw m); cbn [negb]; [|exact Hf]. destruct (a_alternate_screen (o_args o) && negb (m_enter_screen m)); [exact Hf|].
  unfold interactive_calc, open_database.
  assert (Nothing : forall file, made_file file -> let '(u, _, _) := interactive pr ord the_executor (m_terminal m) (o_args o) None evs in made_file (file_of file u)).
  { intros file Hf'. pose proof (interactive_none pr ord the_executor (m_terminal m) (o_args o) evs Ho Ha) as N. destruct (interactive _ _ _ _ _ _ _) as [[u cmds] st]. cbn [fst] in N. unfold file_of. rewrite N. exact Hf'. }
  assert (Opened : forall d sd, program_file (sd_db sd) -> let '(u, _, _) := interactive pr ord the_executor (m_terminal m) (o_args o) (Some sd) evs in made_file d -> made_file (file_of d u)).
  { intros d sd P. pose proof (interactive_good pr ord the_executor (m_terminal m) (o_args o) (Some sd) evs Ho Ha) as G.
    assert (Hd : forall sd0, Some sd = Some sd0 -> program_file (sd_db sd0)) by (intros sd0 [= <-]; exact P). specialize (G Hd).
    clear Nothing. destruct (interactive _ _ _ _ _ _ _) as [[u cmds] st]. cbn [fst] in G. intros Md. unfold file_of. destruct (u_db u) as [sd1|] eqn:U; [|exact Md].
    apply program_made. destruct G as (_ & _ & G). apply G. exact U. }
  destruct (o_no_db o).
  { specialize (Nothing _ Hf). clear Opened. destruct (interactive _ _ _ _ _ _ _) as [[u cmds] st]. exact Nothing. }
  destruct (m_root m).
  { specialize (Nothing _ Hf). clear Opened. destruct (interactive _ _ _ _ _ _ _) as [[u cmds] st]. exact Nothing. }
  { exact Hf. }
  destruct (m_directory m); [|exact Hf]. destruct (sd_open (m_faults m) (m_file m)) as [d' oo] eqn:O.
  destruct (open_made _ _ _ _ Hf O) as [(_ & -> & ->)|(_ & sd & -> & E & P & _)]; [exact Hf|].
  rewrite <- E in P. specialize (Opened (sd_db sd) sd P). rewrite E in Opened. clear Nothing. destruct (interactive _ _ _ _ _ _ _) as [[u cmds] st]. apply Opened. apply program_made. rewrite <- E. exact P.
Qed.

(** when the file stays as it was *)
Lemma main_untouched pr ord o m evs : (forall n, iterates (ord n)) -> valid_settings (o_args o) ->
  ~ uses_database o m \/ ~ terminal_starts o m \/ (exists e, sd_open (m_faults m) (m_file m) = (m_file m, Err e)) ->
  out_file (main pr ord o m evs) = m_file m.
Proof.
  intros Ho Ha H. rewrite main_unfold. unfold uses_database, terminal_starts in H. destruct (o_input o) as [input|]; [destruct (one_shot _ _ _ _); reflexivity|].
  destruct (m_enable_raw m); cbn [negb]; [|reflexivity]. destruct (a_alternate_screen (o_args o)) eqn:A; cbn [andb].
  1: destruct (m_enter_screen m); cbn [negb]; [|reflexivity].
  all: pose proof (interactive_none pr ord the_executor (m_terminal m) (o_args o) evs Ho Ha) as N; unfold interactive_calc, open_database, file_of.
  all: destruct (o_no_db o); [destruct (interactive _ _ _ _ _ _ _) as [[u cmds] st]; cbn [fst] in N; rewrite N; reflexivity|].
  all: destruct (m_root m); [destruct (interactive _ _ _ _ _ _ _) as [[u cmds] st]; cbn [fst] in N; rewrite N; reflexivity|reflexivity|].
  all: destruct (m_directory m); [|reflexivity].
  all: destruct H as [H|[H|(e & ->)]]; [exfalso; apply H; auto|exfalso; apply H; split; [reflexivity|intros; try discriminate; reflexivity]|reflexivity].
Qed.

(** the failed start *)
Lemma main_open_fails pr ord o m evs : o_input o = None -> terminal_starts o m -> o_no_db o = false ->
  forall e, (m_root m = RootNotUnicode /\ e = BadRoot) \/ (m_root m = RootSet /\ m_directory m = false /\ e = DirectoryFailed) \/
    (uses_database o m /\ exists d e', sd_open (m_faults m) (m_file m) = (d, Err e') /\ e = Runtime e') ->
  out_ending (main pr ord o m evs) = FailedWith e.
Proof.
  intros I (A & B) N e H. rewrite main_unfold, I, A. cbn [negb].
  assert (X : a_alternate_screen (o_args o) && negb (m_enter_screen m) = false) by (destruct (a_alternate_screen (o_args o)); [rewrite B by reflexivity|]; reflexivity).
  rewrite X. unfold interactive_calc, open_database. rewrite N.
  destruct H as [(-> & ->)|[(-> & -> & ->)|((_ & _ & R & D) & d & e' & O & ->)]]; try reflexivity. rewrite R, D, O. reflexivity.
Qed.
