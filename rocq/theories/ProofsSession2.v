(** ProofsSession2.v -- working sessions: replies without database failures, and their text. *)
From Verif Require Import Base Position Num TokenTypes Errors Token SavedData Variables InputHistory
  SyntaxTree Commands Calculate Editor Sessions SpecGrammar SpecEval SpecPrint SpecHistory SpecEditor SpecCalc SpecSession.
From Verif Require Import ProofsNum ProofsEval ProofsPrint3 ProofsPrint4 ProofsEditor ProofsEditor2 ProofsEditor4
  ProofsCalc ProofsCalc4 ProofsCalc6 ProofsCalc7 ProofsCalc8 ProofsCalc9 ProofsCalc10 ProofsCalm ProofsCalm2 PropertiesPrint.
From Coq Require Import String Lia.
Local Open Scope nat_scope.
Local Open Scope list_scope.

Lemma shown_ok h : history_of_session h -> exists line, shown h = Ok line.
Proof. intros H. apply history_ok in H. destruct (shown_sheet h H) as (t & E & _). eauto. Qed.
Lemma recording_calm se : working_session se -> no_faults (after_recording se).
Proof.
  intros (_ & _ & R & N & H). unfold after_recording. destruct (s_inputs se) as [h|]; [|exact N].
  unfold input_finished. destruct (current_line h) as [line|e|p] eqn:L; [|exact N|exact N].
  destruct (e_db (s_env se)) as [sd|] eqn:Es; [|intros sd [=]].
  destruct (add_to_input_history line sd) as [sd' o] eqn:A. destruct (add_calm _ _ _ _ (N sd Es) (R sd Es) A) as (i & -> & Ac).
  cbn [fst snd]. intros sd1 [= <-]. exact (accepts_calm _ _ Ac sd' eq_refl).
Qed.
Lemma recording_no_panic se h p : working_session se -> s_inputs se = Some h -> snd (input_finished h (e_db (s_env se))) <> Panic p.
Proof.
  intros (_ & _ & _ & _ & H) E. rewrite E in H. apply history_ok in H.
  destruct (input_finished h (e_db (s_env se))) as [[h' db'] r] eqn:F. exact (proj2 (input_finished_ok _ _ _ _ _ H F) p).
Qed.
Lemma working_inputs se : working_session se -> e_db (s_env se) <> None -> s_inputs se <> None.
Proof. intros (_ & _ & _ & _ & H) N E. rewrite E in H. auto. Qed.
Lemma working_calculate pr ord x input se se' r : working_session se -> iterates ord -> calculate pr ord x input se = (se', r) ->
  working_session se' /\ forall e, r <> Err (RuntimeError e).
Proof.
  intros W Ho C. pose proof (working_inputs se W) as Wi. destruct W as (A & B & R & N & H).
  destruct (calculate_calm _ _ _ _ _ _ _ A B R N Wi C) as (Nr & N').
  destruct (calculate_valid _ _ _ _ _ _ _ A B Ho C) as (A' & B' & _).
  pose proof (calculate_real _ _ _ _ _ _ _ A B R C) as R'. pose proof (calculate_db _ _ _ _ _ _ _ A B Ho C) as Hdb.
  split; [|exact Nr]. split; [exact A'|]. split; [exact B'|]. split; [exact R'|]. split; [exact N'|].
  destruct se as [a [h|] s]; cbn [s_inputs] in *.
  - destruct (shown_ok h H) as (line & L). destruct (recorded_session _ _ _ _ _ _ _ _ _ _ H L C) as (h' & -> & Hh & _). exact Hh.
  - destruct (calculate_cases _ _ _ _ _ _ _ C) as [(_ & _ & h & _ & _ & _ & X & _)|(id & _ & _ & -> & _)]; [discriminate X|]. apply Hdb. exact H.
Qed.
Lemma working_reply pr ord x input se se' r ts : working_session se -> is_expression (a_radix (s_args se)) input ts ->
  calculate pr ord x input se = (se', r) ->
  line_reply pr (s_args se) (after_recording se) ts r /\ forall e, r <> Err (RuntimeError e).
Proof.
  intros W T C. pose proof (working_inputs se W) as Wi. pose proof W as (A & B & R & N & H).
  destruct (calculate_calm _ _ _ _ _ _ _ A B R N Wi C) as (Nr & _). split; [|exact Nr].
  destruct (calculate_cases _ _ _ _ _ _ _ C) as [(_ & _ & h & h' & db' & o & Eh & _ & F & D)|(id & Bd & Hid & Hi)].
  - exfalso. destruct D as [(e & _ & ->)|(p & -> & _)]; [exact (Nr e eq_refl)|]. apply (recording_no_panic se h p W Eh). rewrite F. reflexivity.
  - destruct (calculate_expression _ _ _ _ _ _ _ _ A B T C) as (_ & _ & [(_ & _ & h & Eh & Nf)|(_ & L & _)]); [|exact L].
    rewrite Eh in Hi. destruct Hi as (h' & db' & _ & F). rewrite F in Nf. destruct (Nf id eq_refl).
Qed.
Lemma working_answer pr ord x input se se' text ts : working_session se -> is_expression (a_radix (s_args se)) input ts -> ts <> [] ->
  calculate pr ord x input se = (se', Ok text) ->
  exists n v, (derives 5 ts n \/ exists y, assignment ts y n) /\
    meaning (var_result (after_recording se)) (power_with pr (s_args se)) n (Value v) /\ result_text (s_args se) v text.
Proof.
  intros W T Hn C. destruct (working_reply _ _ _ _ _ _ _ _ W T C) as (L & _). destruct W as (A & _).
  inversion L as [E|n v t D M Cv F E| | | | |]; subst; [destruct (Hn eq_refl)|]. exists n, v. split.
  { destruct D as [D|(y & D & _)]; eauto. }
  split; [exact M|exact F].
Qed.
Lemma working_exact pr ord x input se se' r ts n k res :
  working_session se -> is_expression (a_radix (s_args se)) input ts -> digits_kept pr (s_args se) = Some k ->
  derives 5 ts n \/ ((exists y, assignment ts y n) /\ e_vars (s_env se) <> None) ->
  meaning (var_result (after_recording se)) power_exact n res ->
  calculate pr ord x input se = (se', r) ->
  match res with
  | Value q => exists text, r = Ok text /\ result_text (s_args se) q text
  | Fails e => r = Err e
  | Crashes => exists p, r = Panic p
  end.
Proof.
  intros W T Hk D M C. pose proof (recording_calm se W) as Nf. pose proof (working_reply _ _ _ _ _ _ _ _ W T C) as (_ & Nr). pose proof W as (A & B & _).
  destruct (exact_reply _ _ _ _ _ _ _ _ _ _ _ A B T Hk Nf D M C) as [(e & -> & _)|[(h & p & Eh & P & _)|K]].
  - destruct (Nr e eq_refl).
  - destruct (recording_no_panic se h p W Eh P).
  - destruct res as [q|e|]; [|exact K|exact K]. destruct K as (v & text & Ev & Cv & F & ->). exists text. split; [reflexivity|].
    eapply result_text_eq; eauto.
Qed.
