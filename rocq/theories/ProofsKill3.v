(** ProofsKill3.v -- a program killed while it handles an event (C82). *)
From Verif Require Import Base Position Num TokenTypes Errors Token SavedData Variables InputHistory
  SyntaxTree Commands Calculate Editor Sessions Main Kill SpecGrammar SpecEval SpecHistory SpecEditor SpecCalc SpecCommands SpecSession SpecData SpecMain SpecIo SpecTogether SpecKill.
From Verif Require Import ProofsParse2 ProofsEval ProofsDb ProofsDb2 ProofsDb4 ProofsDb5 ProofsEditor ProofsEditor2 ProofsEditor4 ProofsCalc ProofsCalc2 ProofsCalc3 ProofsCalc4 ProofsCalc5 ProofsCalc6 ProofsCalc7 ProofsCalc8 ProofsCalc9 ProofsCalc10 ProofsCalm ProofsCalm2 ProofsCommands ProofsCommands2 ProofsData
  ProofsSession ProofsSession2 ProofsMain ProofsMain2 ProofsRestart ProofsRestart2 ProofsIo ProofsTogether ProofsTogether2 ProofsRestart3 ProofsMain3 ProofsKill ProofsKill2.
From Coq Require Import String Lia.
Local Open Scope nat_scope.
Local Open Scope list_scope.

Definition working_ui (u : ui) : Prop := ui_steady u /\ history_of_session (u_inputs u).
Lemma twin_ui_working u : working_ui u -> working_session (session_of u).
Proof. intros (((A & B & R) & (Cm & Ex)) & Hh). split; [exact A|]. split; [exact B|]. split; [exact R|]. split; [exact Cm|exact Hh]. Qed.

Lemma finish_killed pr ord tm u uF sd : (forall n, iterates (ord n)) -> working_ui u -> twin_ui u uF -> u_db u = Some sd ->
  let p := finish_line pr ord the_executor tm u in let pF := finish_line pr ord the_executor tm uF in
  exists sd' sdF', u_db (fst (fst p)) = Some sd' /\ u_db (fst (fst pF)) = Some sdF' /\
  (sd_db sdF' = sd_db sd \/ sd_db sdF' = sd_db sd' \/ exists line, shown (u_inputs u) = Ok line /\ half_done (sd_db sd) line (sd_db sdF') (sd_db sd')).
Proof.
  intros Ho U TU Du. cbv zeta. pose proof TU as (A & V & T & I & L & C). pose proof (twin_ui_working u U) as W. unfold session_of in W. rewrite Du in T, W.
  destruct (u_db uF) as [sdF|] eqn:DF; [|destruct T]. pose proof T as (_ & Dd & _).
  assert (Stay : forall (out out' : list tcmd) (st st' : status), exists sd' sdF', u_db (fst (fst (u, out, st))) = Some sd' /\ u_db (fst (fst (uF, out', st'))) = Some sdF' /\
    (sd_db sdF' = sd_db sd \/ sd_db sdF' = sd_db sd' \/ exists line, shown (u_inputs u) = Ok line /\ half_done (sd_db sd) line (sd_db sdF') (sd_db sd'))).
  { intros out out' st st'. exists sd, sdF. cbn [fst]. rewrite Du, DF. auto. }
  unfold finish_line. cbv zeta. rewrite A, V, I, L, C. rewrite Du, DF.
  destruct (display _ _ _ _ _) as [[l o]|e|p]; [|apply (Stay _ _ (Failed e) (Failed e))|apply (Stay _ _ (Crashed p) (Crashed p))].
  destruct (current_line (u_inputs u)) as [input|e|p] eqn:Cl; [|apply (Stay _ _ (Failed e) (Failed e))|apply (Stay _ _ (Crashed p) (Crashed p))].
  pose proof (calculate_lock pr (ord (u_count u)) the_executor input (u_args u) (u_inputs u) (mkEnv (Some (u_vars u)) (Some sd)) (mkEnv (Some (u_vars u)) (Some sdF)) (conj eq_refl T)) as K.
  destruct (calculate _ _ _ _ _) as [se r] eqn:C1. destruct (calculate _ _ _ _ (mkSession _ _ (mkEnv _ (Some sdF)))) as [seF rF] eqn:C2.
  assert (G : exists sd' sdF', e_db (s_env se) = Some sd' /\ e_db (s_env seF) = Some sdF' /\
    (sd_db sdF' = sd_db sd \/ sd_db sdF' = sd_db sd' \/ exists line, shown (u_inputs u) = Ok line /\ half_done (sd_db sd) line (sd_db sdF') (sd_db sd'))).
  { destruct K as [((_ & Et) & Wk & _)|(_ & E)]; cbn [fst snd e_db] in *.
    - destruct (e_db (s_env seF)) as [sdF'|]; [|destruct Wk]. destruct (e_db (s_env se)) as [sd'|]; [|destruct Et]. exists sd', sdF'. split; [reflexivity|]. split; [reflexivity|]. right. left. apply Et.
    - subst rF. destruct (half_line _ _ _ _ _ _ _ _ _ _ _ _ W T Cl (Ho _) C1 C2) as (sd' & sdF' & E1 & E2 & H). exists sd', sdF'. split; [exact E1|]. split; [exact E2|].
      destruct H as [H|H]; [left; exact H|right; right; exists input; split; [exact Cl|exact H]]. }
  destruct G as (sd' & sdF' & E1 & E2 & H). exists sd', sdF'.
  assert (Fin : forall a v h l0 n (r0 : outcome failure str) out s0 v0 (X := mkUi a v (e_db s0) h l0 n), e_db s0 = Some v0 ->
    u_db (fst (fst match render r0 with Panic p => (X, out, Crashed p) | Err e => (X, out, Failed e)
      | Ok text => let '(u'', out3, st) := start_line pr tm X in (u'', out ++ print_output (a_alternate_screen (u_args u)) text ++ out3, st) end)) = Some v0).
  { intros a v h l0 n r0 out s0 v0 X E0. assert (EX : u_db X = Some v0) by exact E0. destruct (render r0) as [text|e|p]; [|exact EX..]. pose proof (start_db pr tm X) as D. destruct (start_line pr tm X) as [[u'' out3] st]. cbn [fst] in *. congruence. }
  split; [apply Fin, E1|]. split; [apply Fin, E2|exact H].
Qed.
Lemma enter_dec ev : (exists mods, ev = EvKey KEnter mods) \/ forall mods, ev <> EvKey KEnter mods.
Proof. destruct ev as [[] mods| | |]; eauto; right; discriminate. Qed.
Lemma quiet_step pr ord x tm ev u : (forall mods, ev <> EvKey KEnter mods) -> same_file (u_db u) (u_db (fst (fst (ui_step pr ord x tm ev u)))).
Proof.
  intros N. unfold ui_step. pose proof (handle_event_file ev (u_line u) (u_inputs u) (u_db u)) as F.
  destruct (handle_event ev (u_line u) (u_inputs u) (u_db u)) as [[[l h] db] act] eqn:E. destruct act; try exact F.
  - destruct (display _ _ _ _ _) as [[? ?]|?|?]; exact F.
  - destruct (enter_only _ _ _ _ _ _ _ E) as ((mods & X) & _). destruct (N mods X).
Qed.
Lemma step_killed pr ord tm ev u F sd : (forall n, iterates (ord n)) -> working_ui u -> u_db u = Some sd ->
  let p := ui_step pr ord the_executor tm ev u in let pF := ui_step pr ord the_executor tm ev (with_faults F u) in
  exists sd' sdF', u_db (fst (fst p)) = Some sd' /\ u_db (fst (fst pF)) = Some sdF' /\
  (sd_db sdF' = sd_db sd \/ sd_db sdF' = sd_db sd' \/ exists mods line, ev = EvKey KEnter mods /\ shown (u_inputs u) = Ok line /\ half_done (sd_db sd) line (sd_db sdF') (sd_db sd')).
Proof.
  intros Ho U Du. cbv zeta. pose proof U as ((G & Sd) & Hh).
  assert (Cu : calm_odb (u_db u)) by apply Sd.
  destruct (enter_dec ev) as [(mods & ->)|N].
  - unfold ui_step. cbn [handle_event]. rewrite (ui_eta u), (ui_eta (with_faults F u)).
    destruct (finish_killed pr ord tm u (with_faults F u) sd Ho U (with_faults_twin F u Cu) Du) as (sd' & sdF' & E1 & E2 & H). exists sd', sdF'. split; [exact E1|]. split; [exact E2|].
    destruct H as [H|[H|(line & H)]]; eauto 8.
  - pose proof (quiet_step pr ord the_executor tm ev u N) as F1. pose proof (quiet_step pr ord the_executor tm ev (with_faults F u) N) as F2.
    unfold with_faults in F2 at 1. cbn [u_db] in F2. rewrite Du in F1, F2.
    destruct (u_db (fst (fst (ui_step pr ord the_executor tm ev u)))) as [sd'|]; [|destruct F1]. destruct (u_db (fst (fst (ui_step pr ord the_executor tm ev (with_faults F u))))) as [sdF'|]; [|destruct F2].
    exists sd', sdF'. split; [reflexivity|]. split; [reflexivity|]. left. exact F2.
Qed.

(** ** In a run of the program *)
Lemma run_working pr ord x tm a sd evs u cmds : (forall n, iterates (ord n)) -> valid_settings a -> program_file (sd_db sd) -> calm sd ->
  interactive pr ord x tm a (Some sd) evs = (u, cmds, Waiting) -> working_ui u /\ ui_ok u.
Proof.
  intros Ho Ha Pf Cm E.
  pose proof (interactive_steady pr ord x tm a (Some sd) evs Ho Ha) as S. rewrite E in S. cbn [fst snd] in S.
  pose proof (interactive_ok pr ord x tm a (Some sd) evs) as K. rewrite E in K. cbn [fst snd] in K. specialize (K eq_refl).
  split; [split|exact K].
  - apply S. intros s [= <-]. auto.
  - pose proof (interactive_history pr ord x tm a (Some sd) evs) as H. rewrite E in H. exact H.
Qed.
Lemma one_more pr ord x tm a db before ev u cmds : interactive pr ord x tm a db before = (u, cmds, Waiting) ->
  exists cmds', interactive pr ord x tm a db (before ++ [ev]) = (fst (fst (ui_step pr ord x tm ev u)), cmds', snd (ui_step pr ord x tm ev u)).
Proof.
  intros E. rewrite interactive_app, E. cbn [run_events]. destruct (ui_step pr ord x tm ev u) as [[u' out] st]. destruct st; cbn [fst snd]; eauto.
Qed.
Lemma killed_step pr ord o m before ev k d0 sd u cmds :
  (forall n, iterates (ord n)) -> valid_settings (o_args o) -> made_file (m_file m) -> database_works m ->
  uses_database o m -> terminal_starts o m ->
  sd_open (m_faults m) (m_file m) = (d0, Ok sd) ->
  interactive pr ord the_executor (m_terminal m) (o_args o) (Some sd) before = (u, cmds, Waiting) ->
  let earlier := out_file (main pr ord o m before) in
  let later := out_file (main pr ord o m (before ++ [ev])) in
  let found := killed pr ord the_executor (m_terminal m) (m_file m) u ev k in
  made_file found /\
  (found = earlier \/ found = later \/
   exists mods line, ev = EvKey KEnter mods /\ shown (u_inputs u) = Ok line /\ half_done earlier line found later).
Proof.
  intros Ho Ha Mf Cm Ud Ts Op In. cbv zeta.
  destruct (open_made _ _ _ _ Mf Op) as [(_ & _ & [=])|(_ & sd0 & [= <-] & Ed & Pf & Ei & _ & Fl & _)].
  assert (Cm' : calm sd) by (unfold calm; rewrite Fl; apply faults_tl, Cm). rewrite <- Ed in Pf.
  destruct (run_working _ _ _ _ _ _ _ _ _ Ho Ha Pf Cm' In) as (W & Uk).
  destruct (one_more _ _ _ _ _ _ _ ev _ _ In) as (cmds' & In').
  destruct (main_session _ _ _ _ _ _ _ _ _ _ Ud Ts Op In) as (F1 & _). destruct (main_session _ _ _ _ _ _ _ _ _ _ Ud Ts Op In') as (F2 & _).
  assert (Du : exists sdu, u_db u = Some sdu).
  { destruct (session_saved pr ord (m_terminal m) (o_args o) sd before Ho Ha Pf Cm') as (sd1 & D1 & _). rewrite In in D1. eauto. }
  destruct Du as (sdu & Du).
  destruct (step_killed pr ord (m_terminal m) ev u (kill_after k) sdu Ho W Du) as (sd' & sdF' & E1 & E2 & H).
  unfold killed, file_of in *. rewrite F1, F2, Du, E1, E2. split; [|exact H].
  assert (G : ui_good (with_faults (kill_after k) u)).
  { destruct W as (((A & B & R) & _) & _). split; [exact A|]. unfold with_faults, ui_env in *. rewrite Du in *. cbn [u_vars u_db] in *. split.
    - destruct B as (B1 & B2). split; [exact B1|]. intros s [= <-]. exact (B2 sdu eq_refl).
    - intros s [= <-]. exact (R sdu eq_refl). }
  pose proof (ui_step_good pr ord the_executor (m_terminal m) ev _ Ho G) as (_ & _ & R'). apply program_made. apply R'. unfold ui_env. cbn [e_db]. exact E2.
Qed.
Lemma killed_roomy pr ord o m before ev k d0 sd u cmds u' cmds' st :
  (forall n, iterates (ord n)) -> valid_settings (o_args o) -> made_file (m_file m) -> database_works m ->
  uses_database o m -> terminal_starts o m ->
  sd_open (m_faults m) (m_file m) = (d0, Ok sd) ->
  interactive pr ord the_executor (m_terminal m) (o_args o) (Some sd) before = (u, cmds, Waiting) ->
  interactive pr ord the_executor (m_terminal m) (o_args o) (Some sd) (before ++ [ev]) = (u', cmds', st) ->
  (forall line radix, In line (submitted u) \/ shown (u_inputs u) = Ok line -> ~ is_histcap radix line) ->
  room_for d0 (List.length (submitted u) + 1) ->
  let found := killed pr ord the_executor (m_terminal m) (m_file m) u ev k in
  (texts_of found = texts_of (m_file m) ++ submitted u \/
   exists mods line, ev = EvKey KEnter mods /\ shown (u_inputs u) = Ok line /\ texts_of found = texts_of (m_file m) ++ submitted u ++ [line]) /\
  (forall y, (forall v, on_disk found y v <-> var_value (ui_env u) y v) \/ (forall v, on_disk found y v <-> var_value (ui_env u') y v)).
Proof.
  intros Ho Ha Mf Cm Ud Ts Op In In' Nh Rm. cbv zeta.
  destruct (killed_step pr ord o m before ev k d0 sd u cmds Ho Ha Mf Cm Ud Ts Op In) as (_ & H). cbv zeta in H.
  destruct (open_made _ _ _ _ Mf Op) as [(_ & _ & [=])|(_ & sd0 & [= <-] & Ed & Pf & Ei & _ & Fl & _)].
  assert (Cm' : calm sd) by (unfold calm; rewrite Fl; apply faults_tl, Cm). rewrite <- Ed in Pf.
  destruct (run_working _ _ _ _ _ _ _ _ _ Ho Ha Pf Cm' In) as (W & Uk).
  destruct (one_more _ _ _ _ _ _ _ ev _ _ In) as (cmds2 & In2). rewrite In' in In2. apply pair_equal_spec in In2 as [In2 _]. apply pair_equal_spec in In2 as [Eu _].
  destruct (step_moves pr ord (m_terminal m) ev u Ho (proj1 W) Uk (proj2 W)) as (new & (Sm & _) & Hn). rewrite <- Eu in Sm.
  assert (Ne : List.length new <= 1 /\ forall l, List.In l new -> shown (u_inputs u) = Ok l).
  { destruct Hn as [->|(line & -> & _ & Hl)]; (split; [cbn; lia|]); [intros l []|intros l [<-|[]]; exact Hl]. }
  assert (Rm0 : room_for d0 (List.length (submitted u))) by (destruct Rm as (cap & C1 & C2); exists cap; split; [exact C1|lia]).
  assert (Rm2 : room_for d0 (List.length (submitted u'))) by (rewrite Sm, app_length; destruct Rm as (cap & C1 & C2); exists cap; split; [exact C1|lia]).
  destruct (left_behind pr ord o m before d0 sd u cmds _ Ho Ha Mf Cm Ud Ts Op In (fun l r I => Nh l r (or_introl I)) Rm0) as (T1 & V1).
  destruct (left_behind pr ord o m (before ++ [ev]) d0 sd u' cmds' _ Ho Ha Mf Cm Ud Ts Op In') as (T2 & V2); [|exact Rm2|].
  { intros l r I. rewrite Sm in I. apply in_app_or in I as [I|I]; apply Nh; [left; exact I|right; apply Ne, I]. }
  destruct H as [->|[->|(mods & line & -> & Hl & (id & noted & Lr & Sh & Dk))]].
  - split; [left; exact T1|]. intros y. left. intros v. apply V1.
  - split; [|intros y; right; intros v; apply V2]. rewrite T2, Sm. destruct Hn as [->|(line & -> & (mods & ->) & Hl)]; [left; rewrite app_nil_r; reflexivity|right; eauto 8].
  - destruct (main_session _ _ _ _ _ _ _ _ _ _ Ud Ts Op In) as (F1 & _).
    destruct (session_saved pr ord (m_terminal m) (o_args o) sd before Ho Ha Pf Cm') as (sd1 & D1 & K). rewrite In in D1, K. cbn [fst] in D1, K.
    destruct (K (fun l r I => Nh l r (or_introl I)) 1) as (_ & R1 & _); [rewrite Ed; exact Rm|].
    assert (Fd : out_file (main pr ord o m before) = sd_db sd1) by (rewrite F1; unfold file_of; rewrite D1; reflexivity).
    assert (Pf1 : program_file (sd_db sd1)) by (destruct W as (((_ & _ & R) & _) & _); apply R; exact D1).
    rewrite Fd in *. destruct (recorded_roomy _ _ _ _ 0 Pf1 Lr R1) as (I1 & _ & Q1). split.
    + right. exists mods, line. split; [reflexivity|]. split; [exact Hl|]. rewrite app_assoc, <- T1. unfold texts_of. rewrite (proj1 Sh), I1, map_app. reflexivity.
    + intros y. destruct (Dk y) as [X|X]; [left|right]; intros v; rewrite X; [rewrite Q1; apply V1|apply V2].
Qed.
