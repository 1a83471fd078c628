(** ProofsMain3.v -- how runs end (C77). *)
From Verif Require Import Base Position Num TokenTypes Errors Token SavedData Variables InputHistory
  SyntaxTree Commands Calculate Editor Sessions Main SpecGrammar SpecEval SpecPrint SpecHistory SpecEditor SpecCalc SpecCommands SpecSession SpecData SpecMain.
From Verif Require Import ProofsEval ProofsEditor2 ProofsEditor4 ProofsDb4 ProofsDb5 ProofsCalc ProofsCalc4 ProofsCalc7 ProofsCalc8 ProofsCalc9 ProofsCalc10 ProofsCalm ProofsCalm2 ProofsData
  ProofsSession ProofsSession2 ProofsMain ProofsRestart ProofsRestart2 ProofsRestart3 ProofsRestart4 ProofsMain2.
From Coq Require Import String Lia.
Local Open Scope nat_scope.
Local Open Scope list_scope.

Lemma interactive_app pr ord x tm a db evs more : interactive pr ord x tm a db (evs ++ more) =
  match interactive pr ord x tm a db evs with
  | (u, out, Waiting) => let '(u', out', st) := run_events pr ord x tm more u in (u', out ++ out', st)
  | stopped => stopped
  end.
Proof.
  unfold interactive. destruct (interactive_start pr tm a db) as [[u out] st]. destruct st; try reflexivity. rewrite run_events_app.
  destruct (run_events pr ord x tm evs u) as [[u1 out1] st1]. destruct st1; try reflexivity.
  destruct (run_events pr ord x tm more u1) as [[u2 out2] st2]. rewrite app_assoc. reflexivity.
Qed.
Lemma calc_stopped pr ord x o m evs more : snd (interactive_calc pr ord x o m evs) <> Running ->
  interactive_calc pr ord x o m (evs ++ more) = interactive_calc pr ord x o m evs.
Proof.
  unfold interactive_calc. destruct (if o_no_db o then _ else _) as [file [e|[db|e|p]]]; try reflexivity.
  rewrite interactive_app. destruct (interactive pr ord x (m_terminal m) (o_args o) db evs) as [[u cmds] st]. cbn [snd]. destruct st; try reflexivity. intros H. destruct (H eq_refl).
Qed.
Lemma ends_once pr ord o m evs more : ended (out_ending (main pr ord o m evs)) -> main pr ord o m (evs ++ more) = main pr ord o m evs.
Proof.
  intros E. rewrite !main_unfold in *. destruct (o_input o) as [input|]; [reflexivity|]. destruct (negb (m_enable_raw m)); [reflexivity|]. destruct (_ && _); [reflexivity|].
  rewrite (calc_stopped _ _ _ _ _ _ more); [reflexivity|]. destruct (interactive_calc _ _ _ _ _ _) as [[[file a] cmds] e]. cbn [out_ending snd] in *.
  intros ->. destruct E as (s & E). discriminate E.
Qed.
Lemma run_exit_split pr ord x tm evs : forall u, snd (run_events pr ord x tm evs u) = Exited ->
  exists before ev after u1 out1, evs = before ++ ev :: after /\ exit_key ev /\ run_events pr ord x tm before u = (u1, out1, Waiting).
Proof.
  induction evs as [|ev evs IH]; intros u H; [discriminate H|]. cbn [run_events] in H. destruct (ui_step pr ord x tm ev u) as [[u' out] st] eqn:S.
  destruct st; try discriminate H.
  - destruct (run_events pr ord x tm evs u') as [[u'' out'] st'] eqn:R. cbn [snd] in H. subst st'.
    destruct (IH u') as (b & k & c & u1 & out1 & -> & K & E); [rewrite R; reflexivity|]. exists (ev :: b), k, c, u1, (out ++ out1). split; [reflexivity|]. split; [exact K|].
    cbn [run_events]. rewrite S, E. reflexivity.
  - exists [], ev, evs, u, []. split; [reflexivity|]. split; [|reflexivity]. apply (ui_step_exit pr ord x tm ev u). rewrite S. reflexivity.
Qed.
Lemma exit_step pr ord x tm ev u : exit_key ev -> ui_step pr ord x tm ev u = (u, if a_alternate_screen (u_args u) then [] else [Print [c_newline]], Exited).
Proof. intros [->|[->| ->]]; destruct u; reflexivity. Qed.
Lemma interactive_exit_split pr ord x tm a db evs : snd (interactive pr ord x tm a db evs) = Exited ->
  exists before ev after u1 out1, evs = before ++ ev :: after /\ exit_key ev /\ interactive pr ord x tm a db before = (u1, out1, Waiting).
Proof.
  unfold interactive. intros H. destruct (interactive_start pr tm a db) as [[u out] st] eqn:S. destruct st; try discriminate H.
  - pose proof (run_exit_split pr ord x tm evs u) as R. destruct (run_events pr ord x tm evs u) as [[u' out'] st']. cbn [snd] in *.
    destruct (R H) as (b & k & c & u1 & out1 & -> & K & E). exists b, k, c, u1, (out ++ out1). rewrite E. auto.
  - unfold interactive_start, start_line in S. destruct (display pr _ false _ _) as [[l' o]|e|p]; discriminate S.
Qed.
Lemma main_exit pr ord o m before ev after : o_input o = None -> out_ending (main pr ord o m before) = Running -> exit_key ev ->
  out_ending (main pr ord o m (before ++ ev :: after)) = Succeeded /\
  out_file (main pr ord o m (before ++ ev :: after)) = out_file (main pr ord o m before) /\
  out_terminal (main pr ord o m (before ++ ev :: after)) =
    out_terminal (main pr ord o m before) ++ (if a_alternate_screen (o_args o) then [] else [Print [c_newline]]).
Proof.
  intros I R K. rewrite !main_unfold in *. rewrite I in *. destruct (negb (m_enable_raw m)); [discriminate R|]. destruct (_ && _); [discriminate R|].
  pose proof (calc_screen pr ord o m before) as Sc.
  unfold interactive_calc in *. destruct (if o_no_db o then _ else _) as [file [e|[db|e|p]]]; try discriminate R.
  rewrite interactive_app. destruct (interactive pr ord the_executor (m_terminal m) (o_args o) db before) as [[u cmds] st]. destruct st; try discriminate R.
  cbn [run_events]. rewrite (exit_step pr ord the_executor (m_terminal m) ev u K). cbn [out_ending out_file out_terminal]. rewrite Sc. auto.
Qed.
Lemma succeeded_iff pr ord o m evs : o_input o = None ->
  exit_status (out_ending (main pr ord o m evs)) = Some 0%N <->
  exists before ev after, evs = before ++ ev :: after /\ exit_key ev /\ out_ending (main pr ord o m before) = Running.
Proof.
  intros I. split; [|intros (b & k & c & -> & K & R); destruct (main_exit pr ord o m b k c I R K) as (-> & _); reflexivity].
  intros E. assert (S : out_ending (main pr ord o m evs) = Succeeded) by (destruct (out_ending (main pr ord o m evs)); try discriminate E; reflexivity). clear E.
  rewrite main_unfold in S. rewrite I in *. destruct (negb (m_enable_raw m)) eqn:A; [discriminate S|]. destruct (_ && _) eqn:B; [discriminate S|].
  unfold interactive_calc in S. destruct (if o_no_db o then _ else _) as [file [e|[db|e|p]]] eqn:O; try discriminate S.
  destruct (interactive_exit_split pr ord the_executor (m_terminal m) (o_args o) db evs) as (b & k & c & u1 & out1 & Ev & K & E).
  { destruct (interactive pr ord the_executor (m_terminal m) (o_args o) db evs) as [[u cmds] st]. destruct st; try discriminate S. reflexivity. }
  exists b, k, c. split; [exact Ev|]. split; [exact K|]. rewrite main_unfold, I, A, B. unfold interactive_calc. rewrite O, E. reflexivity.
Qed.

Lemma working_end pr ord o m evs e : (forall n, iterates (ord n)) -> valid_settings (o_args o) -> made_file (m_file m) -> database_works m ->
  database_ready o m -> terminal_starts o m -> out_ending (main pr ord o m evs) = FailedWith e ->
  exists e', e = Runtime e' /\ (display_failure e' \/ e' = paste_error).
Proof.
  intros Ho Ha Mf Cm Rd (A & B) E. rewrite main_unfold in E. destruct (o_input o) as [input|].
  { pose proof (one_shot_no_runtime pr (ord 0) (o_args o) input) as N. destruct (one_shot pr (ord 0) (o_args o) input) as [line|line|e'|p]; try discriminate E. destruct (N e' Ha eq_refl). }
  rewrite A in E. cbn [negb] in E.
  assert (X : a_alternate_screen (o_args o) && negb (m_enter_screen m) = false) by (destruct (a_alternate_screen (o_args o)); [rewrite B by reflexivity|]; reflexivity).
  rewrite X in E. unfold interactive_calc in E.
  assert (K : exists file db, (if o_no_db o then (m_file m, inr (Ok None)) else open_database m) = (file, inr (Ok db)) /\ working_database db).
  { destruct (o_no_db o) eqn:N; [exists (m_file m), None; split; [reflexivity|intros sd [=]]|]. unfold database_ready in Rd. rewrite N in Rd. destruct Rd as [[=]|[R|(R & D)]]; unfold open_database; rewrite R.
    - exists (m_file m), None. split; [reflexivity|intros sd [=]].
    - rewrite D. destruct (sd_open (m_faults m) (m_file m)) as [d0 oo] eqn:Op. destruct (open_made _ _ _ _ Mf Op) as [(F & _)|(_ & sd & -> & Ed & Pf & _ & _ & Fl & _)]; [destruct (works_head _ Cm F)|].
      exists d0, (Some sd). split; [reflexivity|]. intros sd0 [= <-]. rewrite Ed, Fl. split; [exact Pf|apply faults_tl, Cm]. }
  destruct K as (file & db & K1 & W). rewrite K1 in E. pose proof (interactive_steady pr ord the_executor (m_terminal m) (o_args o) db evs Ho Ha W) as (_ & S).
  destruct (interactive pr ord the_executor (m_terminal m) (o_args o) db evs) as [[u cmds] st]. cbn [snd out_ending] in *.
  destruct st as [| |e'|p]; try discriminate E. injection E as <-. exists e'. split; [reflexivity|]. apply S. reflexivity.
Qed.
