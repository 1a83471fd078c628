(** ProofsCompose2.v -- the one-shot mode answers like a session. *)
From Verif Require Import Base Position Num TokenTypes Errors Token SavedData Variables InputHistory
  SyntaxTree Commands Calculate Editor Sessions Main SpecGrammar SpecEval SpecPrint SpecHistory SpecEditor SpecCalc SpecCommands SpecSession SpecData SpecMain SpecCompose.
From Verif Require Import ProofsCalc ProofsCalc4 ProofsCalc7 ProofsCalc8 ProofsCalc9 ProofsCalc10 ProofsSession2 ProofsMain ProofsMain2 ProofsPure ProofsCompose.
From Coq Require Import String Lia.
Local Open Scope list_scope.

Lemma one_shot_session a : valid_settings a -> working_session (mkSession a None (mkEnv None None)).
Proof. intros Ha. split; [exact Ha|]. split; [split; discriminate|]. split; [intros sd [=]|]. split; [intros sd [=]|reflexivity]. Qed.

Lemma one_shot_agrees pr ord ord' o m evs line se se' r ts : o_input o = Some line -> valid_settings (o_args o) ->
  working_session se -> s_args se = o_args o -> is_expression (a_radix (o_args o)) line ts -> (forall y, ~ mentions ts y) ->
  calculate pr ord the_executor line se = (se', r) ->
  let out := main pr ord' o m evs in
  match r with
  | Ok text => out_stdout out = text ++ [c_newline] /\ out_stderr out = []
  | Err e => exists text, reply_text (Err e) text /\ out_stdout out = [] /\ out_stderr out = text ++ [c_newline]
  | Panic _ => exit_status (out_ending out) = Some 101%N
  end.
Proof.
  intros I Ha W Ea T Nm C. cbv zeta. rewrite main_unfold, I. pose proof (one_shot_no_runtime pr (ord' 0) (o_args o) line) as N.
  unfold one_shot in *. rewrite executor_new_ok in *.
  destruct (calculate pr (ord' 0) the_executor line (mkSession (o_args o) None (mkEnv None None))) as [se2 r2] eqn:C2.
  assert (r2 = r) as ->.
  { eapply reply_depends; [exact (one_shot_session _ Ha)|exact W|symmetry; exact Ea|exact T| |exact C2|exact C]. intros y My. destruct (Nm y My). }
  cbn [snd] in *. destruct r as [text|[mm|e]|p]; cbn [out_stdout out_stderr out_ending exit_status].
  - auto.
  - eexists. split; [constructor|]. split; reflexivity.
  - destruct (N e Ha eq_refl).
  - reflexivity.
Qed.
