(** ProofsKill2.v -- what is on disk after a failing call (C82). *)
From Verif Require Import Base Position Num TokenTypes Errors Token SavedData Variables InputHistory
  SyntaxTree Commands Calculate Editor Sessions Main Kill SpecGrammar SpecEval SpecHistory SpecEditor SpecCalc SpecCommands SpecSession SpecData SpecMain SpecIo SpecKill.
From Verif Require Import ProofsParse2 ProofsEval ProofsDb ProofsDb2 ProofsDb4 ProofsDb5 ProofsEditor ProofsEditor2 ProofsEditor4 ProofsCalc ProofsCalc2 ProofsCalc3 ProofsCalc4 ProofsCalc5 ProofsCalc6 ProofsCalc7 ProofsCalc8 ProofsCalc9 ProofsCalc10 ProofsCalm ProofsCalm2 ProofsCommands ProofsCommands2 ProofsData
  ProofsSession ProofsSession2 ProofsMain ProofsMain2 ProofsRestart ProofsRestart2 ProofsIo ProofsKill.
From Coq Require Import String Lia.
Local Open Scope nat_scope.
Local Open Scope list_scope.

Lemma clear_each x sd sd' o : clear_variable x sd = (sd', o) -> sd_db sd' = sd_db sd \/ (o = Ok tt /\ forall v, ~ on_disk (sd_db sd') x v).
Proof.
  unfold clear_variable, sd_call. destruct (sd_faults sd) as [|[|] fs].
  2:{ intros E. apply pair_equal_spec in E as [<- _]. left. reflexivity. }
  all: destruct (tx_clear_variable x (sd_db sd)) as [[[] d']|e|p] eqn:T; intros E; apply pair_equal_spec in E as [<- <-]; auto; right; split; [reflexivity|];
    intros v H; apply saved_disk in H as (k & H); apply (clear_saved _ _ _ T) in H; destruct H as (H & _); congruence.
Qed.
Lemma purge_each names : forall m sd m' odb' r, rows_ok (sd_db sd) -> purge_loop names m (Some sd) = (m', odb', r) -> exists sd', odb' = Some sd' /\
  forall y, (forall v, on_disk (sd_db sd') y v <-> on_disk (sd_db sd) y v) \/ (In y names /\ forall v, ~ on_disk (sd_db sd') y v).
Proof.
  induction names as [|x names IH]; intros m sd m' odb' r Hok E; cbn [purge_loop] in E.
  - apply pair_equal_spec in E as [E _]. apply pair_equal_spec in E as [_ <-]. exists sd. split; [reflexivity|]. intros y. left. reflexivity.
  - destruct (vs_purge m x (Some sd)) as [[m1 odb1] r1] eqn:T.
    destruct (vs_purge_spec m x (Some sd) m1 odb1 r1 ltac:(intros s0 [= <-]; exact Hok) T) as (Hok1 & _ & _ & _ & Oth & _ & _).
    unfold vs_purge in T. cbv zeta in T. destruct (clear_variable x sd) as [sd1 o] eqn:Cl. apply pair_equal_spec in T as [T Er]. apply pair_equal_spec in T as [_ <-].
    assert (D : forall s y v, odb_disk (Some s) y v <-> on_disk (sd_db s) y v) by (intros s y v; split; [intros (s0 & [= <-] & H); exact H|intros H; exists s; auto]).
    assert (One : forall y, (forall v, on_disk (sd_db sd1) y v <-> on_disk (sd_db sd) y v) \/ (In y (x :: names) /\ forall v, ~ on_disk (sd_db sd1) y v)).
    { intros y. destruct (clear_each _ _ _ _ Cl) as [->|(_ & G)]; [left; reflexivity|]. destruct (list_eq_dec N.eq_dec y x) as [->|Ne]; [right; split; [left; reflexivity|exact G]|].
      left. intros v. rewrite <- !D. symmetry. exact (Oth y v Ne). }
    destruct r1 as [[]|e|p].
    + destruct (IH _ _ _ _ _ (Hok1 sd1 eq_refl) E) as (sd' & -> & K). exists sd'. split; [reflexivity|]. intros y. destruct (K y) as [K1|(I & K1)].
      * destruct (One y) as [O1|(I & O1)]; [left; intros v; rewrite K1; apply O1|right; split; [exact I|]]. intros v. rewrite K1. apply O1.
      * right. split; [right; exact I|exact K1].
    + apply pair_equal_spec in E as [E _]. apply pair_equal_spec in E as [_ <-]. exists sd1. split; [reflexivity|exact One].
    + apply pair_equal_spec in E as [E _]. apply pair_equal_spec in E as [_ <-]. exists sd1. split; [reflexivity|exact One].
Qed.


Lemma call_err {A} (m : tx A) sd sd' e : sd_call m sd = (sd', Err e) -> sd_db sd' = sd_db sd.
Proof.
  unfold sd_call. destruct (sd_faults sd) as [|[|] fs]; [| |]; try (intros E; apply pair_equal_spec in E as [<- _]; reflexivity).
  all: destruct (m (sd_db sd)) as [[x d']|e'|p]; intros E; apply pair_equal_spec in E as [<- E]; try discriminate E; reflexivity.
Qed.
Lemma recorded_add sd line : calm sd -> program_file (sd_db sd) ->
  exists id sd1, add_to_input_history line sd = (sd1, Ok id) /\ line_recorded (sd_db sd) line id (sd_db sd1) /\ calm sd1.
Proof.
  intros Cm Hf. destruct (add_to_input_history line sd) as [sd1 o] eqn:Ea.
  destruct (add_calm _ _ _ _ Cm Hf Ea) as (id & -> & Ac).
  destruct (add_cases _ _ _ _ Hf Ea) as [([=] & _)|(cap & id' & E & A1 & A2 & A3 & A4)].
  assert (id' = id) by congruence. subst id'. exists id, sd1. split; [reflexivity|].
  destruct (file_store _ Hf) as (st & Rp). pose proof (rp_cap_pos _ _ Rp) as P. pose proof (rp_cap _ _ Rp) as Q.
  assert (cap = st_cap st) as -> by (unfold capacity in A1; congruence).
  split; [exists (st_cap st); auto|]. exact (accepts_calm _ _ Ac sd1 eq_refl).
Qed.
Lemma after_add sd sd1 id line a h m : shown h = Ok line -> add_to_input_history line sd = (sd1, Ok id) ->
  after_recording (mkSession a (Some h) (mkEnv m (Some sd))) = mkEnv m (Some sd1) /\
  (forall pr ord x input se' r, calculate pr ord x input (mkSession a (Some h) (mkEnv m (Some sd))) = (se', r) ->
   calculate_body pr ord x input (Some id) a (mkEnv m (Some sd1)) = (s_args se', s_env se', r)).
Proof.
  intros Hl Ea. split.
  - unfold after_recording, input_finished. cbn [s_inputs s_env e_db e_vars]. fold (shown h). rewrite Hl, Ea. reflexivity.
  - intros pr ord x input se' r C. unfold calculate in C. cbn [s_inputs s_env s_args e_db e_vars] in C. unfold input_finished in C. fold (shown h) in C. rewrite Hl, Ea in C.
    destruct (calculate_body pr ord x input (Some id) a (mkEnv m (Some sd1))) as [[a' s'] r'] eqn:B. apply pair_equal_spec in C as [<- <-]. reflexivity.
Qed.

Lemma half_line pr ord input a h m sd sdF se' r seF' line :
  working_session (mkSession a (Some h) (mkEnv (Some m) (Some sd))) -> twin (Some sd) (Some sdF) -> shown h = Ok line -> iterates ord ->
  calculate pr ord the_executor input (mkSession a (Some h) (mkEnv (Some m) (Some sd))) = (se', r) ->
  calculate pr ord the_executor input (mkSession a (Some h) (mkEnv (Some m) (Some sdF))) = (seF', Err (RuntimeError SqliteError)) ->
  exists sd' sdF', e_db (s_env se') = Some sd' /\ e_db (s_env seF') = Some sdF' /\
    (sd_db sdF' = sd_db sd \/ half_done (sd_db sd) line (sd_db sdF') (sd_db sd')).
Proof.
  intros W T Hl Ho C CF. pose proof T as (Cm & Dd & Pp). pose proof W as (Wa & We & Wr & Wn & Wh). cbn [s_args s_env] in *.
  pose proof (Wr sd eq_refl) as Pf. assert (PfF : program_file (sd_db sdF)) by (rewrite Dd; exact Pf).
  set (se := mkSession a (Some h) (mkEnv (Some m) (Some sd))) in *. set (seF := mkSession a (Some h) (mkEnv (Some m) (Some sdF))) in *.
  assert (WeF : env_ok (s_env seF)).
  { destruct We as (A & B). split; [exact A|]. intros s [= <-]. rewrite Dd. apply (B sd eq_refl). }
  assert (Db : exists sd', e_db (s_env se') = Some sd').
  { pose proof (calculate_db _ _ _ _ se _ _ Wa We Ho C) as (_ & X). destruct (e_db (s_env se')) as [s|]; [eauto|]. discriminate (X eq_refl). }
  assert (DbF : exists sdF', e_db (s_env seF') = Some sdF').
  { pose proof (calculate_db _ _ _ _ seF _ _ Wa WeF Ho CF) as (_ & X). destruct (e_db (s_env seF')) as [s|]; [eauto|]. discriminate (X eq_refl). }
  destruct Db as (sd' & Ed), DbF as (sdF' & EdF). exists sd', sdF'. split; [exact Ed|]. split; [exact EdF|].
  destruct (recorded_add sd line Cm Pf) as (id & sd1 & A1 & L & C1).
  destruct (add_to_input_history line sdF) as [sdF1 oF] eqn:AF.
  destruct (call_cases _ _ _ _ _ _ _ T A1 AF) as [(T1 & _ & ->)|(Fl & ->)].
  2:{ left. destruct (add_cases _ _ _ _ PfF AF) as [(_ & E & _)|(? & ? & [=] & _)].
      unfold calculate, seF, input_finished in CF. cbn [s_inputs s_env e_db e_vars s_args] in CF. fold (shown h) in CF. rewrite Hl, AF in CF. apply pair_equal_spec in CF as [<- _].
      cbn [s_env e_db] in EdF. injection EdF as <-. congruence. }
  right. exists id, (sd_db sd1). split; [exact L|]. pose proof T1 as (_ & D1 & _).
  destruct (after_add _ _ _ _ a h (Some m) Hl A1) as (AR & Bd). specialize (Bd _ _ _ _ _ _ C).
  destruct (after_add _ _ _ _ a h (Some m) Hl AF) as (ARF & BdF). specialize (BdF _ _ _ _ _ _ CF). fold se in AR. fold seF in ARF.
  assert (OkF : env_ok (mkEnv (Some m) (Some sdF1))) by (rewrite <- ARF; apply (recording_ok seF WeF)).
  assert (StF : forall y v, stored (mkEnv (Some m) (Some sdF1)) y v <-> on_disk (sd_db sd1) y v).
  { intros y v. rewrite <- D1. unfold stored. cbn [e_db]. split; [intros (s & [= <-] & X); exact X|eauto]. }
  assert (StF' : forall y v, stored (s_env seF') y v <-> on_disk (sd_db sdF') y v).
  { intros y v. unfold stored. rewrite EdF. split; [intros (s & [= <-] & X); exact X|eauto]. }
  assert (Same' : sd_db sdF' = sd_db sdF1 -> same_history (sd_db sd1) (sd_db sdF') /\
     forall y, (forall v, on_disk (sd_db sdF') y v <-> on_disk (sd_db sd1) y v) \/ (forall v, on_disk (sd_db sdF') y v <-> on_disk (sd_db sd') y v)).
  { intros ->. rewrite D1. split; [split; reflexivity|]. intros y. left. reflexivity. }
  assert (Same : s_env seF' = mkEnv (Some m) (Some sdF1) -> same_history (sd_db sd1) (sd_db sdF') /\
     forall y, (forall v, on_disk (sd_db sdF') y v <-> on_disk (sd_db sd1) y v) \/ (forall v, on_disk (sd_db sdF') y v <-> on_disk (sd_db sd') y v)).
  { intros E. apply Same'. rewrite E in EdF. injection EdF as <-. reflexivity. }
  assert (Hist : hist_kept (Some sdF1) (Some sdF') -> same_history (sd_db sd1) (sd_db sdF')).
  { intros K. destruct (kept_same _ _ K sdF1 eq_refl) as (s & [= <-] & Sh). rewrite <- D1. exact Sh. }
  destruct (tokenize input (a_radix a)) as [[ts|name arguments]|e|p] eqn:Tk.
  - destruct (calculate_expression _ _ _ _ _ _ _ ts (Wa : valid_settings (s_args seF)) WeF Tk CF) as (_ & _ & K). rewrite ARF in K.
    destruct K as [(E & _)|(Hk & _ & V)]; [apply Same, E|]. rewrite EdF in Hk. split; [apply Hist, Hk|].
    intros y. left. intros v. rewrite <- StF, <- StF'. destruct V as [((_ & _ & _ & _ & St) & _)|(z & nn & w & As & _ & _ & _ & (_ & _ & _ & _ & St) & [(E & _)|(_ & Dk)])].
    + symmetry. apply St.
    + exfalso. destruct (format_result_ok (E := failure) a w Wa) as (text & X). change (s_args seF) with a in E. rewrite X in E. discriminate E.
    + destruct (list_eq_dec N.eq_dec y z) as [->|Ne]; [symmetry; apply Dk|symmetry; apply St, Ne].
  - destruct (body_command _ _ _ _ _ _ _ _ _ _ _ _ Wa OkF Ho Tk BdF) as (_ & _ & _ & _ & _ & Sk & _ & Ks & Hk & _ & _).
    assert (Hc : is_command (a_radix a) input (pd_value name) (pd_value arguments)) by (exists name, arguments; auto).
    destruct (resolve_in (pd_value name)) as [c|] eqn:Rc.
    2:{ apply Same, Ks. intros c R. unfold resolves in R. fold (resolve_in (pd_value name)) in R. congruence. }
    assert (Rs : forall c', resolves the_executor name c' -> c' = c) by (intros c' R; unfold resolves in R; fold (resolve_in (pd_value name)) in R; congruence).
    assert (Dc : c = CHistCap \/ c = CPurgeVar \/ (c <> CHistCap /\ c <> CPurgeVar)) by (destruct c; auto; right; right; split; discriminate).
    destruct Dc as [->|[->|(N1 & N2)]].
    + destruct (command_body pr ord input (Some id) a (mkEnv (Some m) (Some sdF1)) _ _ _ Hc Rc) as (arg & _ & Eb). rewrite Eb in BdF. clear Eb. cbn [run_command] in BdF. unfold exec_histcap in BdF. cbn [e_db e_vars] in BdF.
      assert (Q : forall a1 s1 (r1 : outcome failure str), (a1, s1, r1) = (s_args seF', s_env seF', Err (RuntimeError SqliteError)) -> s_env seF' = s1 /\ r1 = Err (RuntimeError SqliteError)).
      { intros a1 s1 r1 E. apply pair_equal_spec in E as [E ->]. apply pair_equal_spec in E as [_ ->]. auto. }
      destruct (tokenize_int_list pr (pd_value arg) 10) as [[|i [|j l]]|e|p]; try (apply Same; apply Q in BdF; exact (proj1 BdF)).
      * apply Same'. destruct (get_max_history_size sdF1) as [s2 o2] eqn:G. destruct o2 as [cap|e|p].
        -- rewrite touch_none in BdF. apply Q in BdF as (_ & X). discriminate X.
        -- apply Q in BdF as (X & _). rewrite X in EdF. injection EdF as <-. eapply call_err; exact G.
        -- apply Q in BdF as (_ & X). discriminate X.
      * destruct (validate_max_history_size (pd_value i)); [apply Same; apply Q in BdF; exact (proj1 BdF)|].
        apply Same'. destruct (set_max_history_size (pd_value i) sdF1) as [s2 o2] eqn:G. destruct o2 as [cap|e|p].
        -- rewrite touch_none in BdF. apply Q in BdF as (_ & X). discriminate X.
        -- apply Q in BdF as (X & _). rewrite X in EdF. injection EdF as <-. eapply call_err; exact G.
        -- apply Q in BdF as (_ & X). discriminate X.
    + assert (Hk' : hist_kept (Some sdF1) (Some sdF')) by (rewrite <- EdF; apply Hk; intros c' R; rewrite (Rs _ R); discriminate).
      split; [apply Hist, Hk'|].
      destruct (command_body pr ord input (Some id) a (mkEnv (Some m) (Some sdF1)) _ _ _ Hc Rc) as (arg & Earg & Eb). rewrite Eb in BdF. clear Eb. cbn [run_command] in BdF. unfold exec_purgevar in BdF. cbn [e_db e_vars] in BdF.
      destruct (command_body pr ord input (Some id) a (mkEnv (Some m) (Some sd1)) _ _ _ Hc Rc) as (arg2 & Earg2 & Eb). rewrite Eb in Bd. clear Eb. cbn [run_command] in Bd. unfold exec_purgevar in Bd. cbn [e_db e_vars] in Bd.
      rewrite Earg in BdF. rewrite Earg2 in Bd. clear Earg Earg2 arg arg2.
      destruct (tokenize_variable_list (pd_value arguments)) as [l|e|p].
      2,3: (apply Same; apply pair_equal_spec in BdF as [BdF _]; apply pair_equal_spec in BdF as [_ <-]; reflexivity).
      destruct (purge_loop _ m (Some sdF1)) as [[mF' oF'] rF'] eqn:PF. destruct (purge_loop _ m (Some sd1)) as [[m' o'] r'] eqn:P1.
      assert (Rk : rows_ok (sd_db sdF1)) by (apply (proj2 OkF sdF1 eq_refl)).
      assert (Q1 : calm_odb (Some sd1)) by (intros s0 [= <-]; exact C1).
      assert (Q2 : odb_ok (Some sd1)) by (intros s0 [= <-]; rewrite <- D1; exact Rk).
      destruct (purge_loop_calm _ _ _ _ _ _ Q1 P1) as (-> & _).
      destruct (purge_loop_spec _ _ _ _ _ _ Q2 P1) as (_ & _ & _ & _ & _ & _ & _ & Gone). specialize (Gone eq_refl).
      rewrite touch_none in Bd. apply pair_equal_spec in Bd as [Bd _]. apply pair_equal_spec in Bd as [_ Bd]. rewrite <- Bd in Ed. cbn [e_db] in Ed. subst o'.
      destruct (purge_each _ _ _ _ _ _ Rk PF) as (s2 & -> & K).
      assert (s2 = sdF') as ->.
      { destruct rF' as [[]|e|p]; [rewrite touch_none in BdF|..]; apply pair_equal_spec in BdF as [BdF _]; apply pair_equal_spec in BdF as [_ BdF]; rewrite <- BdF in EdF; cbn [e_db] in EdF; congruence. }
      intros y. rewrite <- D1. destruct (K y) as [K1|(I & K1)]; [left; exact K1|right].
      intros v. split; [intros X; destruct (K1 v X)|]. intros X. destruct (proj2 (Gone y I) v). exists sd'. auto.
    + assert (Hk' : hist_kept (Some sdF1) (Some sdF')) by (rewrite <- EdF; apply Hk; intros c' R; rewrite (Rs _ R); exact N1).
      split; [apply Hist, Hk'|]. intros y. left. intros v. rewrite <- StF, <- StF'. symmetry. apply Sk. intros c' R. rewrite (Rs _ R). split; [exact N1|congruence].
  - destruct (body_unreadable _ _ _ _ _ _ _ _ _ _ ltac:(intros t; rewrite Tk; discriminate) BdF) as (_ & E & _). apply Same, E.
  - destruct (body_unreadable _ _ _ _ _ _ _ _ _ _ ltac:(intros t; rewrite Tk; discriminate) BdF) as (_ & E & _). apply Same, E.
Qed.
