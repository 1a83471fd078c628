(** ProofsRestart.v -- what one session leaves, the next one finds. *)
From Verif Require Import Base Position Num TokenTypes Errors Token SavedData Variables InputHistory
  SyntaxTree Commands Calculate Editor Sessions Main SpecGrammar SpecEval SpecPrint SpecHistory SpecEditor SpecCalc SpecCommands SpecSession SpecData SpecMain.
From Verif Require Import ProofsEditor2 ProofsEditor4 ProofsEval ProofsDb ProofsDb2 ProofsDb3 ProofsDb4 ProofsDb5 ProofsCalc3 ProofsCalc4 ProofsCalc5 ProofsCalc6 ProofsCalc7 ProofsCalc8 ProofsCalc9 ProofsCalc10
  ProofsCalm ProofsCalm2 ProofsCommands2 ProofsSession ProofsSession2 ProofsData ProofsMain.
From Coq Require Import String Lia.
Local Open Scope list_scope.

Lemma saved_used d y q k : program_file d -> saved d y q k -> In k (ids_of d).
Proof. intros (w & i & R & _ & <-). apply saved_is_used. exact R. Qed.

Lemma capacity_fun d c c' : capacity d c -> capacity d c' -> c = c'.
Proof. unfold capacity. congruence. Qed.

(** recording the line when there is room *)
Lemma recorded_roomy d line id d1 n : program_file d -> line_recorded d line id d1 -> room_for d (S n) ->
  inputs_of d1 = inputs_of d ++ [(id, line)] /\ room_for d1 n /\ (forall y q, on_disk d1 y q <-> on_disk d y q).
Proof.
  intros P (cap & C1 & C & C' & I & S) (cap' & C2 & R). pose proof (capacity_fun _ _ _ C C2); subst cap'.
  assert (I' : inputs_of d1 = inputs_of d ++ [(id, line)]) by (rewrite I; apply newest_all; rewrite app_length; cbn; lia).
  split; [exact I'|]. split; [exists cap; split; [exact C'|rewrite I', app_length; cbn; lia]|].
  intros y q. rewrite !saved_disk. split; intros (k & K).
  - apply S in K as (K & _). eauto.
  - exists k. apply S. split; [exact K|]. unfold ids_of. rewrite I', map_app, in_app_iff. left. eapply saved_used; eauto.
Qed.

Lemma roomy_same d d' n : same_history d d' -> room_for d n -> room_for d' n.
Proof. intros (I & C) (cap & Cc & R). exists cap. split; [apply C, Cc|]. rewrite I. exact R. Qed.
Lemma kept_same o o' : hist_kept o o' -> forall sd, o = Some sd -> exists sd', o' = Some sd' /\ same_history (sd_db sd) (sd_db sd').
Proof.
  intros H sd ->. destruct o' as [sd'|]; [|destruct H]. destruct H as (H1 & H2 & _). exists sd'. split; [reflexivity|]. split.
  - unfold inputs_of. rewrite H1. reflexivity.
  - intros n. unfold capacity. rewrite H2. tauto.
Qed.

(** the value of a variable is the one on disk *)
Lemma values_on_disk m sd y v : rows_ok (sd_db sd) -> all_saved (mkEnv (Some m) (Some sd)) ->
  var_value (mkEnv (Some m) (Some sd)) y v <-> on_disk (sd_db sd) y v.
Proof.
  intros Rk A. split.
  - intros (m' & E & [H|(_ & sd' & E' & D)]); cbn in E; injection E as <-.
    + destruct (A y v) as (sd' & E' & D); [exists m; auto|]. cbn in E'. injection E' as <-. exact D.
    + cbn in E'. injection E' as <-. exact D.
  - intros D. exists m. split; [reflexivity|]. destruct (vs_get m y) as [v'|] eqn:G; [left|right; split; [reflexivity|exists sd; split; [reflexivity|exact D]]].
    destruct (A y v') as (sd' & E' & D'); [exists m; auto|]. cbn in E'. injection E' as <-. f_equal. eapply on_disk_inj; [exact Rk|exact D'|exact D].
Qed.

Definition saving (se : session) : Prop := exists h m sd, s_inputs se = Some h /\ s_env se = mkEnv (Some m) (Some sd) /\ all_saved (s_env se).

Lemma env_parts e v d : e_vars e = v -> e_db e = d -> e = mkEnv v d.
Proof. destruct e; intros <- <-; reflexivity. Qed.
Lemma line_saved pr ord input a h m sd se' r line n :
  working_session (mkSession a (Some h) (mkEnv (Some m) (Some sd))) -> shown h = Ok line -> iterates ord ->
  all_saved (mkEnv (Some m) (Some sd)) -> room_for (sd_db sd) (S n) -> ~ is_histcap (a_radix a) input ->
  calculate pr ord the_executor input (mkSession a (Some h) (mkEnv (Some m) (Some sd))) = (se', r) ->
  exists m' sd', s_env se' = mkEnv (Some m') (Some sd') /\ all_saved (s_env se') /\ room_for (sd_db sd') n /\
    exists id, inputs_of (sd_db sd') = inputs_of (sd_db sd) ++ [(id, line)].
Proof.
  intros W Hl Ho A Rm Nh C. set (se := mkSession a (Some h) (mkEnv (Some m) (Some sd))) in *.
  pose proof W as (Wa & We & Wr & Wn & _). pose proof (Wr sd eq_refl) as Pf.
  destruct (recorded_line _ _ _ _ _ _ _ _ _ _ W Hl C) as (id & sd1 & L & Pf1 & Ok1 & Ac & AR & B).
  change (after_recording se = mkEnv (Some m) (Some sd1)) in AR.
  destruct (recorded_roomy _ _ _ _ _ Pf L Rm) as (I1 & R1 & D1).
  assert (A1 : all_saved (mkEnv (Some m) (Some sd1))).
  { intros y v (m' & E & G). cbn in E. injection E as <-. destruct (A y v) as (sd' & E' & D); [exists m; auto|]. cbn in E'. injection E' as <-.
    exists sd1. split; [reflexivity|]. apply D1. exact D. }
  assert (Fin : forall m', s_env se' = mkEnv (Some m') (Some sd1) -> (forall y v, vs_get m' y = Some v -> vs_get m y = Some v) ->
     exists m' sd', s_env se' = mkEnv (Some m') (Some sd') /\ all_saved (s_env se') /\ room_for (sd_db sd') n /\ exists id, inputs_of (sd_db sd') = inputs_of (sd_db sd) ++ [(id, line)]).
  { intros m' E Sub. exists m', sd1. split; [exact E|]. split; [|split; [exact R1|exists id; exact I1]]. rewrite E. intros y v (m2 & E2 & G). cbn in E2. injection E2 as <-.
    destruct (A1 y v) as (sd2 & E3 & D); [exists m; auto|]. cbn in E3. injection E3 as <-. exists sd1. auto. }
  destruct (tokenize input (a_radix a)) as [[ts|name arguments]|e|p] eqn:T.
  - (* expression *)
    destruct (calculate_expression _ _ _ _ _ _ _ ts (Wa : valid_settings (s_args se)) (We : env_ok (s_env se)) T C) as (_ & Ok' & K).
    rewrite AR in K. destruct K as [(E & _)|(Hk & _ & V)]; [apply (Fin m); auto|].
    destruct (kept_same _ _ Hk sd1 eq_refl) as (sd' & Ed & Sh).
    destruct (calculate_valid _ _ _ _ _ _ _ (Wa : valid_settings (s_args se)) (We : env_ok (s_env se)) Ho C) as (_ & _ & Vv).
    destruct (e_vars (s_env se')) as [m'|] eqn:Ev; [|exfalso; destruct Vv as [_ Vv]; discriminate (Vv eq_refl)].
    assert (Ee : s_env se' = mkEnv (Some m') (Some sd')) by exact (env_parts _ _ _ Ev Ed).
    exists m', sd'. split; [exact Ee|]. split; [|split; [eapply roomy_same; eauto|exists id; rewrite (proj1 Sh); exact I1]].
    assert (VD : forall y v, var_value (mkEnv (Some m) (Some sd1)) y v <-> stored (mkEnv (Some m) (Some sd1)) y v).
    { intros y v. rewrite (values_on_disk m sd1 y v) by (auto; apply file_rows, Pf1). unfold stored. cbn [e_db]. split; [eauto|intros (s & [= <-] & X); exact X]. }
    assert (RV : forall y v, remembered (s_env se') y v -> var_value (s_env se') y v) by (intros y v (m2 & E2 & G); exists m2; auto).
    destruct V as [((_ & _ & Va & _ & St) & _)|(y & nn & v & As & _ & _ & _ & (_ & Rem & Va & _ & St) & Dk)].
    + intros y v Ry. apply St, VD, Va, RV, Ry.
    + intros z w Rz. destruct (list_eq_dec N.eq_dec z y) as [->|Nz]; [|apply St; [exact Nz|]; apply VD, Va; [exact Nz|]; apply RV, Rz].
      assert (w = v). { destruct Rem as (m1 & E1 & G1). destruct Rz as (m2 & E2 & G2). congruence. } subst w.
      destruct Dk as [(_ & [N|U])|((e & ->) & _)]; [rewrite Ed in N; discriminate N|apply U; reflexivity|].
      exfalso. destruct (working_calculate _ _ _ _ _ _ _ W Ho C) as (_ & NR). exact (NR e eq_refl).
  - (* command *)
    assert (Hc : is_command (a_radix a) input (pd_value name) (pd_value arguments)) by (exists name, arguments; auto).
    assert (Hs : forall c, resolve_in (pd_value name) = Some c -> keeps_state c = false -> command_aliases c = [] -> pd_value name = command_name c).
    { intros c R _ Na. apply resolve_only in R. rewrite Na in R. destruct R as [R|[]]; auto. }
    destruct (command_line_cases _ _ _ _ _ _ _ _ (Hc : is_command (a_radix (s_args se)) _ _ _) C) as [(_ & E & _)|(n0 & a0 & _ & _ & [(_ & _ & E & _)|(c & Rc & s1 & r1 & _ & Ks & _)])].
    + rewrite AR in E. apply (Fin m); auto.
    + rewrite AR in E. apply (Fin m); auto.
    + destruct (keeps_state c) eqn:Kc; [specialize (Ks eq_refl); rewrite AR in Ks; apply (Fin m); auto|]. clear Ks.
      assert (Vv : exists m', e_vars (s_env se') = Some m').
      { destruct (calculate_valid _ _ _ _ _ _ _ (Wa : valid_settings (s_args se)) (We : env_ok (s_env se)) Ho C) as (_ & _ & Vv).
        destruct (e_vars (s_env se')) as [m'|]; [eauto|exfalso; destruct Vv as [_ Vv]; discriminate (Vv eq_refl)]. }
      destruct Vv as (m' & Ev).
      destruct c; try discriminate Kc; specialize (Hs _ Rc eq_refl eq_refl); cbn [command_name] in Hs; rewrite Hs in Hc.
      * destruct (reload_line _ _ _ _ _ _ _ _ _ _ _ W Hl Ho Hc C) as (id2 & d2 & sd2 & L2 & _ & Ed & Sh & K).
        destruct (recorded_roomy _ _ _ _ _ Pf L2 Rm) as (I2 & R2 & D2).
        assert (Ee : s_env se' = mkEnv (Some m') (Some sd2)) by exact (env_parts _ _ _ Ev Ed).
        exists m', sd2. split; [exact Ee|]. split; [|split; [eapply roomy_same; eauto|exists id2; rewrite (proj1 Sh); exact I2]].
        assert (Old : forall y v, remembered (mkEnv (Some m) (Some sd)) y v -> exists k, saved d2 y v k).
        { intros y v Ry. apply saved_disk, D2. destruct (A y v Ry) as (sd' & E' & D). cbn in E'. injection E' as <-. exact D. }
        intros y v Ry. exists sd2. split; [rewrite Ee; reflexivity|]. apply saved_disk.
        destruct K as [(names & order & rows & Vl & _ & _ & _ & Rem & Sv)|(_ & _ & Em & Es)].
        -- apply Rem in Ry. destruct (in_dec (list_eq_dec N.eq_dec) y names) as [Iy|Ny].
           ++ destruct Ry as [(_ & k & Sk)|(_ & Ry)]; [|destruct (Old _ _ Ry) as (k & Sk)]; exists id2; apply Sv; right; eauto.
           ++ destruct Ry as [(Iy & _)|(_ & Ry)]; [contradiction|]. destruct (Old _ _ Ry) as (k & Sk). exists k. apply Sv. left. auto.
        -- rewrite Es. apply Old. destruct Ry as (m2 & E2 & G). exists m. split; [reflexivity|congruence].
      * destruct (purge_line _ _ _ _ _ _ _ _ _ _ _ W Hl Ho Hc C) as (id2 & d2 & sd2 & L2 & _ & Ed & Sh & K).
        destruct (recorded_roomy _ _ _ _ _ Pf L2 Rm) as (I2 & R2 & D2).
        assert (Ee : s_env se' = mkEnv (Some m') (Some sd2)) by exact (env_parts _ _ _ Ev Ed).
        exists m', sd2. split; [exact Ee|]. split; [|split; [eapply roomy_same; eauto|exists id2; rewrite (proj1 Sh); exact I2]].
        assert (Old : forall y v, remembered (mkEnv (Some m) (Some sd)) y v -> exists k, saved d2 y v k).
        { intros y v Ry. apply saved_disk, D2. destruct (A y v Ry) as (sd' & E' & D). cbn in E'. injection E' as <-. exact D. }
        intros y v Ry. exists sd2. split; [rewrite Ee; reflexivity|]. apply saved_disk.
        destruct K as [(names & Vl & _ & Rem & Sv)|(_ & _ & Em & Es)].
        -- apply Rem in Ry. destruct Ry as (Ny & Ry). destruct (Old _ _ Ry) as (k & Sk). exists k. apply Sv. auto.
        -- rewrite Es. apply Old. destruct Ry as (m2 & E2 & G). exists m. split; [reflexivity|congruence].
      * exfalso. apply Nh. exists (pd_value arguments). exact Hc.
  - destruct (body_unreadable _ _ _ _ _ _ _ _ _ _ ltac:(intros t; rewrite T; discriminate) B) as (_ & E & _). apply (Fin m); auto.
  - destruct (body_unreadable _ _ _ _ _ _ _ _ _ _ ltac:(intros t; rewrite T; discriminate) B) as (_ & E & _). apply (Fin m); auto.
Qed.
