(** ProofsTouch2.v -- a whole submitted line: which input each saved variable hangs on afterwards (C37). *)
From Verif Require Import Base Position Num TokenTypes Errors Token Operations SavedData Variables InputHistory
                          SyntaxTree Commands Calculate SpecGrammar SpecEval SpecHistory SpecEditor SpecCalc.
From Verif Require Import ProofsDb4 ProofsCalc3 ProofsCalc4 ProofsCalc6 ProofsCalc9 ProofsTouch.
From Coq Require Import String Permutation Lia.
Local Open Scope nat_scope.
Local Open Scope list_scope.

Lemma line_moves pr ord input a h m sd se' r line ts :
  valid_settings a -> env_ok (mkEnv (Some m) (Some sd)) -> iterates ord -> program_file (sd_db sd) ->
  shown h = Ok line -> is_expression (a_radix a) input ts ->
  calculate pr ord the_executor input (mkSession a (Some h) (mkEnv (Some m) (Some sd))) = (se', r) ->
  (forall e, r <> Err (RuntimeError e)) ->
  exists cap id sd', capacity (sd_db sd) cap /\ e_db (s_env se') = Some sd' /\
    inputs_of (sd_db sd') = newest cap (inputs_of (sd_db sd) ++ [(id, line)]) /\
    forall y q k, saved (sd_db sd') y q k <->
      (~ mentions ts y /\ saved (sd_db sd) y q k /\ In k (ids_of (sd_db sd'))) \/
      (mentions ts y /\ k = id /\
         ((assigns ts y r /\ remembered (s_env se') y q) \/
          (~ assigns ts y r /\ exists k0, saved (sd_db sd) y q k0 /\ In k0 (ids_of (sd_db sd'))))).
Proof.
  intros Ha Hs Ho Hf Hl T C N. set (se := mkSession a (Some h) (mkEnv (Some m) (Some sd))) in *.
  destruct (recording_ok se Hs) as (Rok & _).
  destruct (add_to_input_history line sd) as [sd1 o] eqn:Ea. pose proof (add_cases _ _ _ _ Hf Ea) as AC.
  assert (AR : after_recording se = mkEnv (Some m) (Some sd1)).
  { unfold after_recording, se, input_finished. cbn [s_inputs s_env e_db e_vars]. fold (shown h). rewrite Hl, Ea. destruct o; reflexivity. }
  destruct (calculate_cases _ _ _ _ _ _ _ C) as [(_ & _ & h0 & h' & db' & o' & Eh & _ & F & D)|(id & B & _ & X)].
  { exfalso. destruct D as [(e & _ & ->)|(p & -> & _)]; [exact (N e eq_refl)|].
    unfold se in Eh, F. cbn [s_inputs s_env e_db] in Eh, F. injection Eh as <-. unfold input_finished in F. fold (shown h) in F. rewrite Hl, Ea in F.
    destruct AC as [(-> & _)|(cap & id & -> & _)]; apply pair_equal_spec in F as [_ F]; discriminate F. }
  unfold se in X. cbn [s_inputs s_env e_db] in X. destruct X as (h' & db' & _ & F). unfold input_finished in F. fold (shown h) in F. rewrite Hl, Ea in F.
  destruct AC as [(-> & _)|(cap & id' & -> & A1 & A2 & A3 & A4)]; [apply pair_equal_spec in F as [_ F]; discriminate F|].
  apply pair_equal_spec in F as [_ F]. injection F as <-. rewrite AR in B, Rok. cbn [se s_args] in B.
  destruct (body_moves _ _ _ _ _ _ _ _ _ _ _ _ _ Ha Rok Ho eq_refl eq_refl T B N) as (sd' & Ed' & M).
  destruct (body_expression _ _ _ _ _ _ _ _ _ _ _ Ha Rok ltac:(discriminate) T B) as (_ & _ & K & _).
  cbn [e_db] in K. rewrite Ed' in K. destruct (hist_kept_inputs _ _ K) as (K1 & K2).
  assert (K3 : ids_of (sd_db sd') = ids_of (sd_db sd1)) by (unfold ids_of; congruence).
  exists cap, id', sd'. split; [exact A1|]. split; [exact Ed'|]. split; [congruence|].
  intros y q k. rewrite M, K3, A4. setoid_rewrite A4. reflexivity.
Qed.
