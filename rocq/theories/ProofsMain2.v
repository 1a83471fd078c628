(** ProofsMain2.v -- the lemmas behind PropertiesMain.v that combine the restart files. *)
From Verif Require Import Base Position Num TokenTypes Errors Token SavedData Variables InputHistory
  SyntaxTree Commands Calculate Editor Sessions Main SpecGrammar SpecEval SpecPrint SpecHistory SpecEditor SpecCalc SpecCommands SpecSession SpecData SpecMain.
From Verif Require Import ProofsEval ProofsEditor2 ProofsEditor4 ProofsDb4 ProofsDb5 ProofsCalc ProofsCalc4 ProofsCalc7 ProofsCalc8 ProofsCalc9 ProofsCalc10 ProofsCalm ProofsCalm2 ProofsData
  ProofsSession ProofsSession2 ProofsMain ProofsRestart ProofsRestart2 ProofsRestart3 ProofsRestart4.
From Coq Require Import String Lia.
Local Open Scope nat_scope.
Local Open Scope list_scope.

Lemma faults_tl (f : list bool) : ~ In true f -> ~ In true (tl f).
Proof. destruct f; [auto|]. intros H X. apply H. right. exact X. Qed.
Lemma works_head (f : list bool) : ~ In true f -> hd_error f <> Some true.
Proof. destruct f; [discriminate|]. intros H [= ->]. apply H. left. reflexivity. Qed.
Lemma always_opens m : made_file (m_file m) -> database_works m -> exists d0 sd, sd_open (m_faults m) (m_file m) = (d0, Ok sd).
Proof.
  intros Mf Cm. destruct (sd_open (m_faults m) (m_file m)) as [d0 oo] eqn:Op.
  destruct (open_made _ _ _ _ Mf Op) as [(F & _)|(_ & sd & -> & _)]; [destruct (works_head _ Cm F)|]. eauto.
Qed.
Lemma texts_eq d d' : inputs_of d = inputs_of d' -> texts_of d = texts_of d'.
Proof. unfold texts_of. intros ->. reflexivity. Qed.

Lemma left_behind pr ord o m evs d0 sd u cmds st :
  (forall n, iterates (ord n)) -> valid_settings (o_args o) -> made_file (m_file m) -> database_works m ->
  uses_database o m -> terminal_starts o m ->
  sd_open (m_faults m) (m_file m) = (d0, Ok sd) ->
  interactive pr ord the_executor (m_terminal m) (o_args o) (Some sd) evs = (u, cmds, st) ->
  (forall line radix, In line (submitted u) -> ~ is_histcap radix line) ->
  room_for d0 (List.length (submitted u)) ->
  let left := out_file (main pr ord o m evs) in
  texts_of left = texts_of (m_file m) ++ submitted u /\
  forall y v, on_disk left y v <-> var_value (ui_env u) y v.
Proof.
  intros Ho Ha Mf Cm Ud Ts Op In Nh Rm. cbv zeta.
  destruct (open_made _ _ _ _ Mf Op) as [(_ & _ & [=])|(_ & sd0 & [= <-] & Ed & Pf & Ei & _ & Fl & _)].
  assert (Cm' : ~ List.In true (sd_faults sd)) by (rewrite Fl; apply faults_tl, Cm).
  rewrite <- Ed in Rm, Pf.
  destruct (main_session _ _ _ _ _ _ _ _ _ _ Ud Ts Op In) as (Of & _ & _).
  destruct (session_saved pr ord (m_terminal m) (o_args o) sd evs Ho Ha Pf Cm') as (sd1 & D1 & K). rewrite In in D1, K. cbn [fst] in D1, K.
  destruct (K Nh 0) as (As & _ & T); [rewrite Nat.add_0_r; exact Rm|]. clear K.
  pose proof (interactive_steady pr ord the_executor (m_terminal m) (o_args o) (Some sd) evs Ho Ha ltac:(intros s [= <-]; split; [exact Pf|exact Cm'])) as (((_ & _ & Rd) & _) & _).
  rewrite In in Rd. cbn [fst] in Rd. specialize (Rd sd1 D1).
  unfold file_of in Of. rewrite D1 in Of. rewrite Of. split.
  - rewrite T. f_equal. apply texts_eq. congruence.
  - intros y v. unfold ui_env in *. rewrite D1 in *. symmetry. apply values_on_disk; [apply file_rows, Rd|exact As].
Qed.

Lemma stored_lines_back pr ord m o d0 sd k :
  made_file (m_file m) -> database_works m -> uses_database o m -> terminal_starts o m -> a_alternate_screen (o_args o) = false ->
  sd_open (m_faults m) (m_file m) = (d0, Ok sd) ->
  (forall t, In t (texts_of (m_file m)) -> ~ In c_newline t) -> roomy (m_terminal m) 0 ->
  let stored := texts_of (m_file m) in
  exists u cmds, interactive pr ord the_executor (m_terminal m) (o_args o) (Some sd) (repeat (EvKey KUp 0) k) = (u, cmds, Waiting) /\
    shown (u_inputs u) = Ok (nth (Nat.min k (List.length stored)) ([] :: rev stored) []) /\
    (forall t, shown (u_inputs u) = Ok t -> l_cursor (u_line u) = List.length t) /\
    out_file (main pr ord o m (repeat (EvKey KUp 0) k)) = d0 /\ texts_of d0 = stored.
Proof.
  intros Mf Cm Ud Ts Al Op Nl Rm. cbv zeta.
  destruct (open_made _ _ _ _ Mf Op) as [(_ & _ & [=])|(_ & sd0 & [= <-] & Ed & Pf & Ei & _ & Fl & Ps)].
  assert (Et : texts_of (sd_db sd) = texts_of (m_file m)) by (apply texts_eq; congruence).
  destruct (ups_show pr ord the_executor (m_terminal m) (o_args o) sd k Al) as (u & out & E & S & C & sd' & D & F).
  - rewrite Ed. exact Pf.
  - rewrite Fl. apply faults_tl, Cm.
  - rewrite Ps. congruence.
  - rewrite Et. exact Nl.
  - exact Rm.
  - rewrite Et in S. exists u, out. split; [exact E|]. split; [exact S|]. split; [exact C|].
    destruct (main_session _ _ _ _ _ _ _ _ _ _ Ud Ts Op E) as (-> & _). unfold file_of. rewrite D, F. split; [exact Ed|congruence].
Qed.

Lemma one_shot_run pr ord o m evs input : o_input o = Some input -> valid_settings (o_args o) ->
  let r := main pr ord o m evs in
  out_file r = m_file m /\ out_modes r = as_found /\ out_terminal r = [] /\
  ((exists answer, out_stdout r = answer ++ [c_newline] /\ out_stderr r = [] /\ exit_status (out_ending r) = Some 0%N) \/
   (exists complaint, out_stdout r = [] /\ out_stderr r = lit "Error: " ++ complaint ++ [c_newline] /\ exit_status (out_ending r) = Some 0%N) \/
   (out_stdout r = [] /\ out_stderr r = [] /\ exit_status (out_ending r) = Some 101%N)).
Proof.
  intros I Ha. cbv zeta. rewrite main_unfold, I. pose proof (one_shot_no_runtime pr (ord 0) (o_args o) input) as N.
  assert (St : forall line, one_shot pr (ord 0) (o_args o) input = Stderr line -> exists c, line = lit "Error: " ++ c).
  { intros line. unfold one_shot. destruct executor_new as [x|[]|p]; [|discriminate]. destruct (snd _) as [s|[mm|e]|p]; try discriminate. intros E. apply (f_equal (fun w => match w with Stderr l => l | _ => [] end)) in E. cbv beta iota in E. rewrite <- E. eexists. reflexivity. }
  destruct (one_shot pr (ord 0) (o_args o) input) as [line|line|e|p]; cbn [out_file out_modes out_terminal out_stdout out_stderr out_ending exit_status];
    (split; [reflexivity|]); (split; [reflexivity|]); (split; [reflexivity|]).
  - left. exists line. auto.
  - right. left. destruct (St line eq_refl) as (c & ->). exists c. rewrite app_assoc. auto.
  - destruct (N e Ha eq_refl).
  - right. right. auto.
Qed.
Lemma one_shot_answer pr ord o m evs input ts n k res : o_input o = Some input -> valid_settings (o_args o) ->
  is_expression (a_radix (o_args o)) input ts -> digits_kept pr (o_args o) = Some k -> derives 5 ts n ->
  meaning (var_result (mkEnv None None)) power_exact n res ->
  let r := main pr ord o m evs in
  match res with
  | Value q => exists text, out_stdout r = text ++ [c_newline] /\ result_text (o_args o) q text
  | Fails e => exists text, out_stderr r = text ++ [c_newline] /\ reply_text (Err e) text
  | Crashes => exit_status (out_ending r) = Some 101%N
  end.
Proof.
  intros I Ha T Hk D M. cbv zeta. rewrite main_unfold, I. pose proof (one_shot_no_runtime pr (ord 0) (o_args o) input) as N.
  unfold one_shot in *. rewrite executor_new_ok in *.
  destruct (calculate pr (ord 0) the_executor input (mkSession (o_args o) None (mkEnv None None))) as [se' r] eqn:C.
  assert (W : working_session (mkSession (o_args o) None (mkEnv None None))).
  { split; [exact Ha|]. split; [split; discriminate|]. split; [intros sd [=]|]. split; [intros sd [=]|reflexivity]. }
  pose proof (working_exact _ _ _ _ _ _ _ _ _ _ _ W T Hk (or_introl D) M C) as K. cbn [snd] in *.
  destruct res as [q|e|].
  - destruct K as (text & -> & R). exists text. split; [reflexivity|exact R].
  - subst r. destruct e as [mm|e]; [|destruct (N e Ha eq_refl)]. eexists. split; [reflexivity|constructor].
  - destruct K as (p & ->). reflexivity.
Qed.

Lemma newer_left pr ord o m evs v : (forall n, iterates (ord n)) -> valid_settings (o_args o) ->
  uses_database o m -> terminal_starts o m -> terminal_obeys m -> zassoc meta_MinimumVersion (d_meta (m_file m)) = Some v -> (1 < v)%Z ->
  let r := main pr ord o m evs in
  out_file r = m_file m /\ exit_status (out_ending r) = Some 1%N /\ out_modes r = as_found /\ out_terminal r = [].
Proof.
  intros Ho Ha Ud Ts Tb Z V. cbv zeta. destruct (open_newer (m_faults m) (m_file m) v Z V) as (e & E). pose proof Ud as (I & N & R & D).
  assert (En : out_ending (main pr ord o m evs) = FailedWith (Runtime e)) by (apply main_open_fails; auto; right; right; split; [exact Ud|]; eauto).
  split; [apply main_untouched; auto; right; right; eauto|]. split; [rewrite En; reflexivity|]. split.
  - apply given_back; [exact Tb|rewrite En; eexists; reflexivity|rewrite En; discriminate].
  - rewrite main_unfold, I. destruct Ts as (A & B). rewrite A. cbn [negb]. destruct (a_alternate_screen (o_args o)) eqn:Q; [rewrite (B eq_refl)|]; cbn [andb negb].
    all: unfold interactive_calc, open_database; rewrite N, R, D, E; reflexivity.
Qed.
