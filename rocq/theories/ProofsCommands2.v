(** ProofsCommands2.v -- command lines: settings, replies, dispatch. *)
From Verif Require Import Base Position Num TokenTypes Errors Token SavedData Variables InputHistory
  SyntaxTree Commands Calculate Editor Sessions SpecLex SpecGrammar SpecEval SpecHistory SpecCalc SpecCommands.
From Verif Require Import ProofsPosition ProofsNum ProofsLex ProofsLex2 ProofsEval ProofsDb ProofsCalc ProofsCalc2 ProofsCalc3 ProofsCalc4 ProofsCalc5 ProofsCalc6
  ProofsCalc8 ProofsCalc9 ProofsCalc10 ProofsCommands.
From Coq Require Import String Lia.
Local Open Scope nat_scope.
Local Open Scope list_scope.

Lemma command_line_cases pr ord input se se' r name arguments : is_command (a_radix (s_args se)) input name arguments ->
  calculate pr ord the_executor input se = (se', r) ->
  not_recorded se se' r \/
  (exists n a, pd_value n = name /\ pd_value a = arguments /\
   ((resolve_in name = None /\ s_args se' = s_args se /\ s_env se' = after_recording se /\ r = Err (no_such_command n)) \/
    exists c, resolve_in name = Some c /\ exists s1 r1, run_command pr ord the_executor c a (s_args se) (after_recording se) = (s_args se', s1, r1) /\
      (keeps_state c = true -> s_env se' = after_recording se) /\
      match r1 with
      | Ok (m, []) => r = Ok m /\ s_env se' = s1
      | Ok (m, _) => True
      | Err e => r = Err e /\ s_env se' = s1
      | Panic p => r = Panic p /\ s_env se' = s1
      end)).
Proof.
  intros (n & a & T & En & Ea) C. destruct (calculate_two _ _ _ _ _ _ _ C) as [N|(id & B)]; [left; exact N|right]. exists n, a. split; [exact En|]. split; [exact Ea|].
  unfold calculate_body in B. rewrite T in B. unfold execute_command in B. rewrite <- En. fold (resolve_in (pd_value n)) in B.
  destruct (resolve_in (pd_value n)) as [c|] eqn:R.
  2:{ left. cmd_leaf B. auto. }
  right. exists c. split; [reflexivity|].
  destruct (run_command pr ord the_executor c a (s_args se) (after_recording se)) as [[a1 s1] r1] eqn:RC. exists s1, r1.
  destruct r1 as [[m t]|e|p].
  - destruct (touch_all t id s1) as [s2 r2] eqn:Tt. apply pair_equal_spec in B as [B <-]. apply pair_equal_spec in B as [<- <-]. split; [reflexivity|]. split.
    + intros K. destruct (setting_keeps _ _ _ _ _ _ _ _ _ _ K RC) as (-> & Ht & _). rewrite (Ht m t eq_refl), touch_none in Tt. apply pair_equal_spec in Tt as [<- _]. reflexivity.
    + destruct t; [|exact I]. rewrite touch_none in Tt. apply pair_equal_spec in Tt as [<- <-]. auto.
  - apply pair_equal_spec in B as [B <-]. apply pair_equal_spec in B as [<- <-]. split; [reflexivity|]. split; [|auto].
    intros K. destruct (setting_keeps _ _ _ _ _ _ _ _ _ _ K RC) as (-> & _). reflexivity.
  - apply pair_equal_spec in B as [B <-]. apply pair_equal_spec in B as [<- <-]. split; [reflexivity|]. split; [|auto].
    intros K. destruct (setting_keeps _ _ _ _ _ _ _ _ _ _ K RC) as (-> & _). reflexivity.
Qed.

Lemma setting_line pr ord input se se' r name arguments : is_command (a_radix (s_args se)) input name arguments ->
  calculate pr ord the_executor input se = (se', r) ->
  not_recorded se se' r \/
  (exists text, setting_effect (s_args se) name arguments (s_args se') text /\ r = Ok text /\ s_env se' = after_recording se) \/
  ((forall a' t, ~ setting_effect (s_args se) name arguments a' t) /\ s_args se' = s_args se /\
   (called name setting_names -> (exists m, r = Err (InputError m)) /\ s_env se' = after_recording se)).
Proof.
  intros Hc C. destruct (command_line_cases _ _ _ _ _ _ _ _ Hc C) as [N|(n & a & En & Ea & D)]; [left; exact N|right].
  destruct D as [(R & A & S & ->)|(c & R & s1 & r1 & RC & Ks & Hr)].
  - right. split; [|split; [exact A|]].
    + intros a' t Ef. apply effect_split in Ef as (c & (_ & Hn) & _). apply name_cases in Hn. congruence.
    + intros _. split; [eexists; reflexivity|exact S].
  - destruct (sets c) eqn:K.
    + assert (Sn : setting_names_of c name) by (split; [exact K|apply name_cases; exact R]).
      assert (Kc : keeps_state c = true) by (destruct c; try discriminate K; reflexivity).
      destruct (setting_run _ _ _ _ _ _ _ _ _ _ K RC) as [(text & Ef & ->)|(Ne & Ea' & m & ->)]; rewrite Ea in *.
      * left. exists text. destruct Hr as (-> & _). split; [apply effect_split; eauto|auto].
      * right. split; [|split; [exact Ea'|intros _; split; [destruct Hr as (-> & _); eauto|auto]]].
        intros a' t Ef. apply effect_split in Ef as (c' & Hn & Ef). rewrite (names_unique _ _ _ Hn Sn) in Ef. exact (Ne _ _ Ef).
    + assert (Kc : sets_settings c = false) by (destruct c; try discriminate K; reflexivity).
      right. split; [|split; [exact (others_keep_settings _ _ _ _ _ _ _ _ _ _ Kc RC)|]].
      * intros a' t Ef. apply effect_split in Ef as (c' & (K' & Hn) & _). apply name_cases in Hn. congruence.
      * intros Hn. exfalso. unfold called in Hn. cbn [map In setting_names] in Hn.
        repeat (destruct Hn as [Hn|Hn]; [subst name; rewrite <- Hn in R; vm_compute in R; injection R as <-; discriminate K|]). destruct Hn.
Qed.

(** any line *)
Lemma effect_done a name arguments a' text : setting_effect a name arguments a' text -> a' = a \/ text = lit "Done".
Proof. intros H. destruct H; auto. Qed.
Lemma effect_frame a name arguments a' text : setting_effect a name arguments a' text -> a_alternate_screen a' = a_alternate_screen a.
Proof. intros H. destruct H; reflexivity. Qed.
Lemma effect_fits a name arguments a' text : setting_effect a name arguments a' text -> precision_fits a -> precision_fits a'.
Proof. intros H. destruct H; unfold precision_fits; cbn [a_precision a_extra_precision]; auto; lia. Qed.
Lemma line_settings pr ord input se se' r : calculate pr ord the_executor input se = (se', r) ->
  s_args se' = s_args se \/
  exists name arguments, is_command (a_radix (s_args se)) input name arguments /\
    setting_effect (s_args se) name arguments (s_args se') (lit "Done") /\ r = Ok (lit "Done") /\ s_env se' = after_recording se.
Proof.
  intros C. destruct (tokenize input (a_radix (s_args se))) as [[ts|n a]|e|p] eqn:T.
  2:{ destruct (setting_line _ _ _ _ _ _ _ _ (ex_intro _ n (ex_intro _ a (conj T (conj eq_refl eq_refl)))) C) as [(A & _)|[(text & Ef & -> & S)|(_ & A & _)]]; auto.
      destruct (effect_done _ _ _ _ _ Ef) as [E | ->]; [left; exact E|]. right. exists (pd_value n), (pd_value a). split; [exists n, a; auto|]. auto. }
  all: left; eapply expression_settings; [|exact C]; rewrite T; discriminate.
Qed.

Lemma line_fits pr ord input se se' r : calculate pr ord the_executor input se = (se', r) -> precision_fits (s_args se) -> precision_fits (s_args se').
Proof. intros C F. destruct (line_settings _ _ _ _ _ _ C) as [-> |(name & arguments & _ & Ef & _)]; [exact F|eapply effect_fits; eassumption]. Qed.
Lemma line_screen pr ord input se se' r : calculate pr ord the_executor input se = (se', r) -> a_alternate_screen (s_args se') = a_alternate_screen (s_args se).
Proof. intros C. destruct (line_settings _ _ _ _ _ _ C) as [-> |(name & arguments & _ & Ef & _)]; [reflexivity|eapply effect_frame; eassumption]. Qed.

(** ** Whole sessions: anything about the settings that every line keeps holds throughout *)
Lemma session_keeps (P : args -> Prop) pr es :
  (forall ord input se se' r, calculate pr ord the_executor input se = (se', r) -> P (s_args se) -> P (s_args se')) ->
  forall se, P (s_args se) -> P (s_args (session_after pr the_executor es se)).
Proof.
  intros K. induction es as [|[input ord|inputs db] es IH]; intros se H; cbn [session_after happens]; [exact H| |].
  - apply IH. destruct (calculate pr ord the_executor input se) as [se' r] eqn:C. eapply K; eassumption.
  - apply IH. exact H.
Qed.
Lemma start_line_args pr tm u : u_args (fst (fst (start_line pr tm u))) = u_args u.
Proof. unfold start_line. cbv zeta. destruct (tm _) as [[? ?] ?]. destruct (display _ _ _ _ _) as [[? ?]|?|?]; reflexivity. Qed.
Lemma interactive_keeps (P : args -> Prop) pr ord tm a db evs :
  (forall ord input se se' r, calculate pr ord the_executor input se = (se', r) -> P (s_args se) -> P (s_args se')) ->
  P a -> P (u_args (fst (fst (interactive pr ord the_executor tm a db evs)))).
Proof.
  intros K H.
  assert (Fin : forall u, P (u_args u) -> P (u_args (fst (fst (finish_line pr ord the_executor tm u))))).
  { intros u Hu. unfold finish_line. cbv zeta. destruct (display _ _ _ _ _) as [[? ?]|?|?]; try exact Hu. destruct (current_line _) as [input|?|?]; try exact Hu.
    destruct (calculate _ _ _ _ _) as [se' r] eqn:C. specialize (K _ _ _ _ _ C Hu).
    destruct (render r) as [text|e|p]; try exact K.
    match goal with |- context [start_line pr tm ?u0] => pose proof (start_line_args pr tm u0) as SA; destruct (start_line pr tm u0) as [[u2 o2] st2] end.
    cbn [fst] in *. rewrite SA. exact K. }
  assert (Step : forall ev u, P (u_args u) -> P (u_args (fst (fst (ui_step pr ord the_executor tm ev u))))).
  { intros ev u Hu. unfold ui_step. destruct (handle_event _ _ _ _) as [[[l' h'] db'] act]. destruct act; try exact Hu.
    - destruct (display _ _ _ _ _) as [[? ?]|?|?]; exact Hu.
    - apply Fin. exact Hu. }
  assert (Run : forall evs u, P (u_args u) -> P (u_args (fst (fst (run_events pr ord the_executor tm evs u))))).
  { induction evs0 as [|ev evs0 IH]; intros u Hu; [exact Hu|]. cbn [run_events]. specialize (Step ev u Hu).
    destruct (ui_step pr ord the_executor tm ev u) as [[u' out] st]. cbn [fst] in Step. destruct st; try exact Step.
    specialize (IH u' Step). destruct (run_events pr ord the_executor tm evs0 u') as [[u'' out'] st']. exact IH. }
  unfold interactive, interactive_start. match goal with |- context [start_line pr tm ?u0] => pose proof (start_line_args pr tm u0) as SA; destruct (start_line pr tm u0) as [[u2 o2] st2] end.
  cbn [fst u_args] in SA. destruct st2; cbn [fst]; try (rewrite SA; exact H).
  specialize (Run evs u2). rewrite SA in Run. specialize (Run H). destruct (run_events _ _ _ _ _ _) as [[u'' out'] st']. exact Run.
Qed.

(** ** Dispatch *)
Lemma unknown_command name : ~ In name all_names -> resolve_in name = None.
Proof.
  intros N. destruct (resolve_in name) as [c|] eqn:R; [|reflexivity]. exfalso. apply N. apply name_cases in R.
  destruct c; cbn [command_name command_aliases In] in R; unfold all_names; cbn [map In]; intuition.
Qed.
Lemma help_list arguments a s : no_argument (pd_value arguments) -> Forall (fun c => c <> 11%N) (pd_value arguments) ->
  exec_help the_executor arguments a s = (a, s, Ok (help_text (is_none (e_db s)) (is_none (e_vars s)), [])).
Proof.
  intros N V. unfold exec_help. destruct (ptrim_trimmed (E := failure) arguments) as (y & -> & pre & post & E & _ & Hs & _).
  assert (pd_value y = []) as ->.
  { destruct (pd_value y) as [|c w]; [reflexivity|]. exfalso. specialize (Hs c w eq_refl).
    unfold no_argument in N. rewrite E in N, V. apply Forall_app in N as [_ N], V as [_ V]. apply Forall_inv in N, V. unfold space in N. apply not_blank_ws in Hs. unfold is_ascii_whitespace in Hs.
    rewrite !orb_false_iff, !N.eqb_neq in Hs. lia. }
  destruct s as [[m|] [d|]]; vm_compute; reflexivity.
Qed.

Lemma help_resolves name : name = lit "help" \/ name = lit "h" -> resolve_in name = Some CHelp.
Proof. intros [-> | ->]; vm_compute; reflexivity. Qed.
Lemma help_line pr ord input se se' r name arguments :
  is_command (a_radix (s_args se)) input name arguments -> name = lit "help" \/ name = lit "h" ->
  no_argument arguments -> Forall (fun c => c <> 11%N) arguments ->
  calculate pr ord the_executor input se = (se', r) ->
  (exists h, s_inputs se = Some h /\ forall id, snd (input_finished h (e_db (s_env se))) <> Ok id) \/
  (r = Ok (help_text (is_none (e_db (s_env se))) (is_none (e_vars (s_env se)))) /\ s_args se' = s_args se /\ s_env se' = after_recording se).
Proof.
  intros Hc Hn Na Nv C. destruct (command_line_cases _ _ _ _ _ _ _ _ Hc C) as [(_ & _ & _ & N)|(n & a & En & Ea & D)]; [left; exact N|right].
  pose proof (help_resolves _ Hn) as R0. destruct D as [(R & _)|(c & R & s1 & r1 & RC & Ks & Hr)]; [congruence|].
  assert (c = CHelp) as -> by congruence. cbn [run_command] in RC. subst arguments. rewrite (help_list a _ _ Na Nv) in RC.
  apply pair_equal_spec in RC as [RC <-]. apply pair_equal_spec in RC as [E1 <-]. destruct Hr as (-> & E2). split; [|auto].
  assert (B : is_none (e_db (after_recording se)) = is_none (e_db (s_env se)) /\ is_none (e_vars (after_recording se)) = is_none (e_vars (s_env se))).
  { unfold after_recording, input_finished. destruct (s_inputs se) as [h|]; [|auto]. destruct (current_line h); cbn [fst snd e_vars e_db]; auto.
    destruct (e_db (s_env se)) as [sd|]; [|auto]. destruct (add_to_input_history a0 sd) as [? [?|?|?]]; auto. }
  destruct B as (-> & ->). reflexivity.
Qed.
Lemma ends_dec (s t : str) : (exists front, s = front ++ t) <-> firstn (List.length t) (rev s) = rev t.
Proof.
  split.
  - intros (front & ->). rewrite rev_app_distr, <- rev_length. rewrite firstn_app, Nat.sub_diag, firstn_all, app_nil_r. reflexivity.
  - intros E. exists (rev (skipn (List.length t) (rev s))). apply (f_equal (@rev N)) in E. rewrite rev_involutive in E. rewrite <- E at 2.
    rewrite <- rev_app_distr, firstn_skipn. symmetry. apply rev_involutive.
Qed.
Lemma help_described c s topic : In topic (command_name c :: command_aliases c) -> describes (is_none (e_db s)) (is_none (e_vars s)) topic (long_help c s).
Proof.
  intros H. destruct s as [vars db]. cbn [e_db e_vars].
  assert (K : exists names body lacking, In (names, body, lacking) (manual (is_none db) (is_none vars)) /\ map lit names = command_name c :: command_aliases c /\
    long_help c (mkEnv vars db) = body ++ match lacking with Some what => lit "

This command is currently unavailable because " ++ what ++ lit " unavailable." | None => [] end).
  { unfold manual.
    destruct c; [exists ["help"; "h"]%string|exists ["reloadvar"]%string|exists ["purgevar"]%string|exists ["histcap"]%string|exists ["fractional"; "f"]%string
      |exists ["radix"; "r"]%string|exists ["converttoradix"]%string|exists ["upper"]%string|exists ["commas"; "comma"]%string|exists ["precision"; "p"]%string];
    (eexists _, _; split; [cbn [In]; repeat (first [left; reflexivity|right])|]);
    (split; [reflexivity|]); destruct vars, db; vm_compute; reflexivity. }
  destruct K as (names & body & un & I & N & U). exists names, body, un. split; [exact I|]. split; [unfold called; rewrite N; exact H|exact U].
Qed.
Lemma recording_none se : is_none (e_db (after_recording se)) = is_none (e_db (s_env se)) /\ e_vars (after_recording se) = e_vars (s_env se).
Proof.
  unfold after_recording, input_finished. destruct (s_inputs se) as [h|]; [|auto]. destruct (current_line h); cbn [fst snd e_vars e_db]; auto.
  destruct (e_db (s_env se)) as [sd|]; [|auto]. destruct (add_to_input_history a sd) as [? [?|?|?]]; auto.
Qed.
Lemma help_topic pr ord input se se' r name arguments :
  is_command (a_radix (s_args se)) input name arguments -> name = lit "help" \/ name = lit "h" ->
  calculate pr ord the_executor input se = (se', r) ->
  s_args se' = s_args se /\ s_env se' = after_recording se /\
  ((exists h, s_inputs se = Some h /\ forall id, snd (input_finished h (e_db (s_env se))) <> Ok id) \/
   exists pre topic post, arguments = pre ++ topic ++ post /\ Forall blank pre /\ Forall blank post /\
     (forall c w, topic = c :: w -> ~ blank c) /\ (forall c w, topic = w ++ [c] -> ~ blank c) /\
     ((topic = [] /\ r = Ok (help_text (is_none (e_db (s_env se))) (is_none (e_vars (s_env se))))) \/
      (exists text, r = Ok text /\ describes (is_none (e_db (s_env se))) (is_none (e_vars (s_env se))) topic text) \/
      (~ In topic all_names /\ exists p, r = Err (InputError (mkMP (lit "No such command: '" ++ topic ++ lit "'") (Some p)))))).
Proof.
  intros Hc Hn C. destruct (command_line_cases _ _ _ _ _ _ _ _ Hc C) as [(A & S & _ & N)|(n & a & En & Ea & D)]; [auto|].
  pose proof (help_resolves _ Hn) as R0. destruct D as [(R & _)|(c & R & s1 & r1 & RC & Ks & Hr)]; [congruence|].
  assert (c = CHelp) as -> by congruence. cbn [run_command] in RC. specialize (Ks eq_refl). destruct (help_keeps _ _ _ _ _ _ _ RC) as (Ea' & Es & Ht).
  split; [exact Ea'|]. split; [exact Ks|]. right. unfold exec_help in RC.
  destruct (ptrim_trimmed (E := failure) a) as (y & Ey & pre & post & E & B & H1 & H2 & _). rewrite Ey in RC. subst arguments.
  apply Forall_app in B as [B1 B2].
  exists pre, (pd_value y), post. split; [exact E|]. split; [exact B1|]. split; [exact B2|].
  split; [exact H1|]. split; [exact H2|].
  destruct (recording_none se) as (<- & <-).
  destruct (pd_value y) as [|t ts] eqn:Et; [left; split; [reflexivity|]|right].
  { apply pair_equal_spec in RC as [_ <-]. destruct Hr as (-> & _). destruct (after_recording se) as [[m|] [d|]]; vm_compute; reflexivity. }
  rewrite <- Et in *. fold (resolve_in (pd_value y)) in RC.
  destruct (resolve_in (pd_value y)) as [c|] eqn:Rc.
  - left. exists (long_help c (after_recording se)). split; [|apply help_described, name_cases; exact Rc]. unfold cmd_done in RC. apply pair_equal_spec in RC as [_ <-]. destruct Hr as (-> & _). reflexivity.
  - right. split.
    + intros Hin. unfold all_names in Hin. cbn [map In] in Hin. repeat (destruct Hin as [Hin|Hin]; [rewrite <- Hin in Rc; vm_compute in Rc; discriminate Rc|]). destruct Hin.
    + apply pair_equal_spec in RC as [_ <-]. destruct Hr as (-> & _). eexists. reflexivity.
Qed.
