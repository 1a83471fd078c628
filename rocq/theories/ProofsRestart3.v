(** ProofsRestart3.v -- the next session: variables, answers and history. *)
From Verif Require Import Base Position Num TokenTypes Errors Token SavedData Variables InputHistory
  SyntaxTree Commands Calculate Editor Sessions Main SpecGrammar SpecEval SpecPrint SpecHistory SpecEditor SpecCalc SpecCommands SpecSession SpecData SpecMain.
From Verif Require Import ProofsEditor ProofsEditor2 ProofsEditor4 ProofsEval ProofsDb ProofsDb2 ProofsDb3 ProofsDb4 ProofsDb5 ProofsCalc ProofsCalc2 ProofsCalc3 ProofsCalc4 ProofsCalc5 ProofsCalc6 ProofsCalc7 ProofsCalc8 ProofsCalc9 ProofsCalc10
  ProofsCalm ProofsCalm2 ProofsCommands2 ProofsSession ProofsSession2 ProofsData ProofsMain ProofsRestart ProofsRestart2.
From Coq Require Import String Lia.
Local Open Scope nat_scope.
Local Open Scope list_scope.

Lemma typed_history line b : history_of_session (mkIH [] [] [Some line] 0 (negb b)).
Proof.
  induction line as [|c line IH] using rev_ind; [apply history_new|].
  assert (E : @insert_char runtime_error (mkIH [] [] [Some line] 0 (negb b)) (List.length line) c = Ok (mkIH [] [] [Some (line ++ [c])] 0 (negb b))).
  { unfold insert_char, edit_current, ensure_populated. cbn. unfold string_insert. rewrite Nat.leb_refl. cbn [bind]. rewrite firstn_all, skipn_all. reflexivity. }
  refine (eq_ind_r history_of_session _ (insert_step _ _ _ _ E)). apply history_step; [exact IH|]. intros l El. cbn in El. injection El as <-. cbn [in_line]. apply le_n.
Qed.
Lemma new_working a sd line : valid_settings a -> program_file (sd_db sd) -> ~ In true (sd_faults sd) ->
  working_session (type_in line (new_session a (Some sd))).
Proof.
  intros Ha Pf Cm. split; [exact Ha|]. split; [split|split; [|split]].
  - intros m y v E G. cbn in E. injection E as <-. discriminate G.
  - intros sd' E. cbn in E. injection E as <-. apply file_rows, Pf.
  - intros sd' E. cbn in E. injection E as <-. exact Pf.
  - intros sd' E. cbn in E. injection E as <-. exact Cm.
  - apply (typed_history line true).
Qed.

(** what is stored now is what a new session gets *)
Lemma results_survive m sd sd2 y p r : rows_ok (sd_db sd) -> all_saved (mkEnv (Some m) (Some sd)) -> ~ In true (sd_faults sd) ->
  rows_ok (sd_db sd2) -> (forall x v, on_disk (sd_db sd2) x v <-> on_disk (sd_db sd) x v) ->
  var_result (mkEnv (Some m) (Some sd)) y p r -> var_result (mkEnv (Some []) (Some sd2)) y p r.
Proof.
  intros Rk A Cm Rk2 D H. inversion H as [E|m0 v q E G Q|m0 sd0 v q E G E0 O Q|m0 E G N|m0 sd0 E G E0 N|m0 sd0 E G E0 I]; subst r; cbn in E.
  - discriminate E.
  - injection E as <-. destruct (A y v) as (sd' & E' & O); [exists m; auto|]. cbn in E'. injection E' as <-.
    eapply vr_disk; [reflexivity|reflexivity|reflexivity|apply D, O|exact Q].
  - cbn in E0. injection E0 as <-. eapply vr_disk; [reflexivity|reflexivity|reflexivity|apply D, O|exact Q].
  - discriminate N.
  - cbn in E0. injection E0 as <-. eapply vr_unknown; [reflexivity|reflexivity|reflexivity|]. apply not_on_disk_iff; [exact Rk2|]. intros v O. apply D in O.
    exact (proj1 (not_on_disk_iff _ _ Rk) N v O).
  - cbn in E0. injection E0 as <-. destruct (Cm I).
Qed.

Lemma next_answer pr ord a sd input ts n k res m1 sd1 se' r :
  valid_settings a -> program_file (sd_db sd) -> ~ In true (sd_faults sd) -> room_for (sd_db sd) 1 ->
  rows_ok (sd_db sd1) -> all_saved (mkEnv (Some m1) (Some sd1)) -> ~ In true (sd_faults sd1) ->
  (forall x v, on_disk (sd_db sd) x v <-> on_disk (sd_db sd1) x v) ->
  is_expression (a_radix a) input ts -> digits_kept pr a = Some k -> derives 5 ts n \/ (exists y, assignment ts y n) ->
  meaning (var_result (mkEnv (Some m1) (Some sd1))) power_exact n res ->
  calculate pr ord the_executor input (type_in input (new_session a (Some sd))) = (se', r) ->
  match res with
  | Value q => exists text, r = Ok text /\ result_text a q text
  | Fails e => r = Err e
  | Crashes => exists p, r = Panic p
  end.
Proof.
  intros Ha Pf Cm Rm Rk1 As Cm1 D T Hk Dv M C. pose proof (new_working a sd input Ha Pf Cm) as W.
  assert (Hl : shown (mkIH [] [] [Some input] 0 false) = Ok input) by reflexivity.
  destruct (recorded_line pr ord input a (mkIH [] [] [Some input] 0 false) (Some []) sd se' r input W Hl C) as (id & sd2 & L & Pf2 & Ok2 & Ac & AR & _).
  destruct (recorded_roomy _ _ _ _ 0 Pf L Rm) as (_ & _ & D2).
  refine (working_exact _ _ _ _ _ _ _ _ _ _ _ W T Hk _ _ C).
  - destruct Dv as [Dv|Dv]; [left; exact Dv|right]. split; [exact Dv|discriminate].
  - change (after_recording (type_in input (new_session a (Some sd))) = mkEnv (Some []) (Some sd2)) in AR. rewrite AR.
    refine (proj1 (meaning_mono _ _ power_exact _) _ _ M). intros x p r0 H. eapply results_survive; [exact Rk1|exact As|exact Cm1|apply file_rows, Pf2| |exact H].
    intros y v. rewrite D2. apply D.
Qed.

(** ** Two runs of the program *)
Lemma main_session pr ord o m evs d0 sd u cmds st : uses_database o m -> terminal_starts o m ->
  sd_open (m_faults m) (m_file m) = (d0, Ok sd) -> interactive pr ord the_executor (m_terminal m) (o_args o) (Some sd) evs = (u, cmds, st) ->
  out_file (main pr ord o m evs) = file_of d0 u /\ out_terminal (main pr ord o m evs) = cmds /\
  out_ending (main pr ord o m evs) = match st with Waiting => Running | Exited => Succeeded | Failed e => FailedWith (Runtime e) | Crashed p => Panicked p end.
Proof.
  intros (I & N & R & D) (A & B) O E. rewrite main_unfold, I, A. cbn [negb].
  assert (X : a_alternate_screen (o_args o) && negb (m_enter_screen m) = false) by (destruct (a_alternate_screen (o_args o)); [rewrite B by reflexivity|]; reflexivity).
  rewrite X. unfold interactive_calc, open_database. rewrite N, R, D, O, E. cbn. auto.
Qed.

Lemma two_runs pr ord o m evs d0 sd u cmds st pr2 ord2 o2 m2 line ts n k res :
  (forall n, iterates (ord n)) -> valid_settings (o_args o) -> made_file (m_file m) -> database_works m -> uses_database o m -> terminal_starts o m ->
  sd_open (m_faults m) (m_file m) = (d0, Ok sd) -> interactive pr ord the_executor (m_terminal m) (o_args o) (Some sd) evs = (u, cmds, st) ->
  (forall l radix, In l (submitted u) -> ~ is_histcap radix l) -> room_for d0 (List.length (submitted u) + 1) ->
  (forall n, iterates (ord2 n)) -> valid_settings (o_args o2) -> m_file m2 = out_file (main pr ord o m evs) -> database_works m2 -> uses_database o2 m2 -> terminal_starts o2 m2 ->
  a_alternate_screen (o_args o2) = false -> typable line -> roomy (m_terminal m2) 0 -> roomy (m_terminal m2) (List.length line) ->
  is_expression (a_radix (o_args o2)) line ts -> digits_kept pr2 (o_args o2) = Some k -> derives 5 ts n \/ (exists y, assignment ts y n) ->
  meaning (var_result (ui_env u)) power_exact n res ->
  match res with
  | Crashes => True
  | _ => exists text rows, transcript (m_terminal m2) 0 [(line, text)] rows /\
      screen_after (out_terminal (main pr2 ord2 o2 m2 (typing_lines [line]))) blank = mkScreen rows (lit "# ") 2 /\
      match res with Value q => result_text (o_args o2) q text | Fails e => reply_text (Err e) text | Crashes => True end
  end.
Proof.
  intros Ho Ha Mf Cm Ud Ts Op In Nh Rm Ho2 Ha2 Ef Cm2 Ud2 Ts2 Al2 Ty R0 Rl T Hk Dv M.
  destruct (open_made _ _ _ _ Mf Op) as [(_ & _ & [=])|(_ & sd0 & [= <-] & Ed & Pf & _ & _ & Fl & _)].
  assert (Cm' : ~ List.In true (sd_faults sd)) by (rewrite Fl; unfold database_works in Cm; destruct (m_faults m); [exact Cm|]; intros X; apply Cm; right; exact X).
  rewrite <- Ed in Rm, Pf.
  destruct (main_session _ _ _ _ _ _ _ _ _ _ Ud Ts Op In) as (Of & _ & _).
  destruct (session_saved pr ord (m_terminal m) (o_args o) sd evs Ho Ha Pf Cm') as (sd1 & D1 & K). rewrite In in D1, K. cbn [fst] in D1, K.
  destruct (K Nh 1 Rm) as (As & Rm1 & _). clear K.
  pose proof (interactive_steady pr ord the_executor (m_terminal m) (o_args o) (Some sd) evs Ho Ha ltac:(intros s [= <-]; split; [exact Pf|exact Cm'])) as (((_ & _ & Rd) & (Cm1 & _)) & _).
  rewrite In in Rd, Cm1. cbn [fst] in Rd, Cm1. specialize (Rd sd1 D1). specialize (Cm1 sd1 D1).
  unfold file_of in Of. rewrite D1 in Of. rewrite Of in Ef.
  destruct (sd_open (m_faults m2) (m_file m2)) as [d2 oo] eqn:Op2. rewrite Ef in Op2.
  destruct (open_made _ _ _ _ (program_made _ Rd) Op2) as [(F2 & _)|(_ & sd2 & -> & Ed2 & Pf2 & Ei2 & Sv2 & Fl2 & _)].
  { exfalso. apply Cm2. destruct (m_faults m2) as [|b f]; [discriminate F2|]. injection F2 as ->. left. reflexivity. }
  assert (Cm2' : ~ List.In true (sd_faults sd2)) by (rewrite Fl2; unfold database_works in Cm2; destruct (m_faults m2); [exact Cm2|]; intros X; apply Cm2; right; exact X).
  rewrite <- Ed2 in Pf2, Sv2, Ei2.
  assert (Rm2 : room_for (sd_db sd2) 1).
  { destruct Rm1 as (cap & C & L). exists cap. rewrite Ei2. split; [|exact L]. unfold capacity in *.
    unfold sd_open, sd_call in Op2. cbn [sd_faults sd_db sd_pos] in Op2. destruct (file_store _ Rd) as (st1 & Rp). rewrite (open_rep _ _ Rp) in Op2.
    destruct (m_faults m2) as [|[|] f]; apply pair_equal_spec in Op2 as [E1 E2]; try discriminate E2; cbn [sd_db] in E1; rewrite Ed2, <- E1; exact C. }
  unfold ui_env in M, As. rewrite D1 in M, As.
  destruct (calculate pr2 (ord2 0) the_executor line (type_in line (new_session (o_args o2) (Some sd2)))) as [se' r] eqn:C.
  assert (D2 : forall x v, on_disk (sd_db sd2) x v <-> on_disk (sd_db sd1) x v).
  { intros x v. rewrite !saved_disk. split; intros (kk & S); exists kk; apply Sv2; exact S. }
  pose proof (next_answer _ _ _ _ _ _ _ _ _ _ _ _ _ Ha2 Pf2 Cm2' Rm2 (file_rows _ Rd) As Cm1 D2 T Hk Dv M C) as Ans.
  assert (Go : forall text, reply_text r text -> exists rows, transcript (m_terminal m2) 0 [(line, text)] rows /\
      screen_after (out_terminal (main pr2 ord2 o2 m2 (typing_lines [line]))) blank = mkScreen rows (lit "# ") 2).
  { intros text Rt. destruct (dialogue_interactive pr2 ord2 (m_terminal m2) (o_args o2) (Some sd2) [line] se' [(line, text)] Ho2 Ha2 Al2) as (u2 & out2 & rows & E2 & _ & Tr & _ & Sc); auto.
    - intros s [= <-]. exact Pf2.
    - intros l [<-|[]]. exact Rl.
    - econstructor; [exact C|exact Rt|constructor].
    - exists rows. split; [exact Tr|]. assert (Op2' : sd_open (m_faults m2) (m_file m2) = (d2, Ok sd2)) by (rewrite Ef; exact Op2).
      destruct (main_session _ _ _ _ _ _ _ _ _ _ Ud2 Ts2 Op2' E2) as (_ & -> & _). exact Sc. }
  destruct res as [q|e|]; [| |exact I].
  - destruct Ans as (text & -> & Rt). destruct (Go text (rt_answer text)) as (rows & Tr & Sc). exists text, rows. auto.
  - subst r. destruct e as [mm|e].
    + destruct (Go _ (rt_error mm)) as (rows & Tr & Sc). eexists _, rows. split; [exact Tr|]. split; [exact Sc|constructor].
    + destruct (Go _ (rt_failure e)) as (rows & Tr & Sc). eexists _, rows. split; [exact Tr|]. split; [exact Sc|constructor].
Qed.
