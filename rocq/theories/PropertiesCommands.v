(** PropertiesCommands.v -- the commands: C54-C57. *)
From Verif Require Import Base Position Num TokenTypes Errors Token SavedData Variables InputHistory
  SyntaxTree Commands Calculate Editor Sessions SpecLex SpecGrammar SpecEval SpecHistory SpecEditor SpecCalc SpecCommands.
From Verif Require Import ProofsNum ProofsEval ProofsDb ProofsLex ProofsPosition ProofsCalc ProofsCalc4 ProofsCalc5 ProofsCalc6 ProofsCalc8 ProofsCalc9 ProofsCalc10
  ProofsCommands ProofsCommands2 PropertiesEditor PropertiesCalc.
From Coq Require Import String Permutation Lia.
Local Open Scope nat_scope.
Local Open Scope list_scope.

(** ** C54 *)
Theorem C54_radixes_stay_valid : forall pr es se, valid_settings (s_args se) ->
  let a := s_args (session_after pr the_executor es se) in
  (2 <= a_radix a <= 16)%N /\ (forall c, a_convert_to_radix a = Some c -> (2 <= c <= 16)%N) /\
  (a_precision a < 256)%N /\ (a_extra_precision a < 256)%N.
Proof.
  intros pr es se H. apply (session_keeps valid_settings); [|exact H]. intros ord input se0 se' r C V. eapply calculate_settings; eassumption.
Qed.
Print Assumptions C54_radixes_stay_valid.
Theorem C54_interactive : forall pr ord tm a db evs, valid_settings a ->
  let '(u, _, _) := interactive pr ord the_executor tm a db evs in
  (2 <= a_radix (u_args u) <= 16)%N /\ (forall c, a_convert_to_radix (u_args u) = Some c -> (2 <= c <= 16)%N).
Proof.
  intros pr ord tm a db evs H.
  assert (V : valid_settings (u_args (fst (fst (interactive pr ord the_executor tm a db evs))))).
  { apply interactive_keeps; [|exact H]. intros ord0 input se0 se' r C V. eapply calculate_settings; eassumption. }
  destruct (interactive pr ord the_executor tm a db evs) as [[u out] st]. destruct V as (A & B & _). split; [exact A|exact B].
Qed.
Print Assumptions C54_interactive.
Example C54_example :
  let a := s_args (afterwards [lit "/radix 17"; lit "/r 1"; lit "/radix -3"; lit "/converttoradix 99"; lit "/converttoradix 2"; lit "/radix 16"] se0) in
  a_radix a = 16%N /\ a_convert_to_radix a = Some 2%N /\ valid_settings a0.
Proof. split; [vm_compute; reflexivity|]. split; [vm_compute; reflexivity|exact a0_ok]. Qed.

(** ** C55 *)
(** A command line that was recorded is either a proper use of a settings command, and then it has
    exactly the described effect and reply, or it changes no setting; and an improper use of a
    settings command is an input error. *)
Theorem C55_exact_effect : forall pr ord input se se' r name arguments,
  is_command (a_radix (s_args se)) input name arguments ->
  calculate pr ord the_executor input se = (se', r) ->
  (s_args se' = s_args se /\ exists h, s_inputs se = Some h /\
     ((exists e, snd (input_finished h (e_db (s_env se))) = Err e /\ r = Err (RuntimeError e)) \/
      exists p, snd (input_finished h (e_db (s_env se))) = Panic p /\ r = Panic p)) \/
  (exists text, setting_effect (s_args se) name arguments (s_args se') text /\ r = Ok text /\ s_env se' = after_recording se) \/
  ((forall a' t, ~ setting_effect (s_args se) name arguments a' t) /\ s_args se' = s_args se /\
   (called name setting_names -> (exists m, r = Err (InputError m)) /\ s_env se' = after_recording se)).
Proof.
  intros pr ord input se se' r name arguments Hc C.
  destruct (calculate_cases _ _ _ _ _ _ _ C) as [(A & _ & h & h' & db' & o & Eh & _ & F & D)|(id & B & Hid & Hi)].
  - left. split; [exact A|]. exists h. rewrite F. cbn [snd]. split; [exact Eh|]. destruct D as [(e & -> & ->)|(p & -> & ->)]; [left|right]; eauto.
  - right. destruct (setting_line _ _ _ _ _ _ _ _ Hc C) as [(_ & _ & _ & h & Eh & Nf)|D]; [|exact D].
    rewrite Eh in Hi. destruct Hi as (h' & db' & _ & F). rewrite F in Nf. destruct (Nf id eq_refl).
Qed.
Print Assumptions C55_exact_effect.
(** What is described is unambiguous. *)
Theorem C55_effect_unique : forall a name arguments a1 t1 a2 t2,
  setting_effect a name arguments a1 t1 -> setting_effect a name arguments a2 t2 -> a1 = a2 /\ t1 = t2.
Proof. exact setting_effect_det. Qed.
Print Assumptions C55_effect_unique.
(** Whatever the line: settings change only with the reply "Done". *)
Theorem C55_nothing_else_changes_settings : forall pr ord input se se' r,
  calculate pr ord the_executor input se = (se', r) ->
  (r <> Ok (lit "Done") -> s_args se' = s_args se) /\
  a_alternate_screen (s_args se') = a_alternate_screen (s_args se).
Proof.
  intros pr ord input se se' r C. split; [|eapply line_screen; exact C].
  intros N. destruct (line_settings _ _ _ _ _ _ C) as [E|(_ & _ & _ & _ & E & _)]; [exact E|destruct (N E)].
Qed.
Print Assumptions C55_nothing_else_changes_settings.
Example C55_example :
  let step line se := (snd (enter (lit line) se), s_args (fst (enter (lit line) se))) in
  step "/f  TRUE"%string se0 = (Ok (lit "Done"), mkArgs 10 false None 5 3 true false true) /\
  step "/converttoradix 0"%string se0 = (Err (InputError (mkMP (lit "Radix cannot be less than 2") (Some (mkPos 0 1)))), a0) /\
  step "/p 7 3"%string se0 = (Ok (lit "Done"), mkArgs 10 false None 7 3 false false true) /\
  step "/p 250 6"%string se0 = (Err (InputError (mkMP (lit "Sum of precision and extra must be representable as an 8-bit unsigned integer") (Some (mkPos 0 5)))), a0) /\
  step "/precision"%string se0 = (Ok (lit "Precision = 5" ++ [10%N] ++ lit "Extra Precision = 3"), a0).
Proof. vm_compute. auto. Qed.

(** ** C56 *)
(** A successful /precision with arguments leaves two precisions whose sum fits in 8 bits -- the
    given ones --, without arguments it changes nothing; *)
Theorem C56_precision_command : forall pr ord input se se' text name arguments,
  is_command (a_radix (s_args se)) input name arguments -> name = lit "precision" \/ name = lit "p" ->
  calculate pr ord the_executor input se = (se', Ok text) ->
  (integers arguments [] /\ s_args se' = s_args se) \/
  ((a_precision (s_args se') + a_extra_precision (s_args se') <= 255)%N /\
   ((exists z, integers arguments [z] /\ Z.of_N (a_precision (s_args se')) = z /\ a_extra_precision (s_args se') = a_extra_precision (s_args se)) \/
    exists z y, integers arguments [z; y] /\ Z.of_N (a_precision (s_args se')) = z /\ Z.of_N (a_extra_precision (s_args se')) = y)).
Proof.
  intros pr ord input se se' text name arguments Hc Hn C.
  destruct (setting_line _ _ _ _ _ _ _ _ Hc C) as [(_ & _ & [(e & X)|(p & X)] & _)|[(t & Ef & _ & _)|(_ & _ & X)]]; try discriminate X.
  - apply effect_split in Ef as (c & N & Ef).
    assert (c = CPrecision) as -> by (apply (names_unique _ _ name N); split; [reflexivity|destruct Hn as [-> | ->]; vm_compute; tauto]).
    clear C Hc. destruct (s_args se) as [r s cv p e f m u]. revert Ef. generalize (s_args se'). intros a' Ef. inversion Ef; subst; try (match goal with H : _ \/ _ |- _ => destruct H as [(H & _)|[(H & _)|(H & _)]]; discriminate H end).
    + left. auto.
    + right. cbn [a_precision a_extra_precision set_precision] in *. split; [clear - H0 H1; lia|]. left. exists z. split; [assumption|]. split; [apply Z2N.id; assumption|reflexivity].
    + right. cbn [a_precision a_extra_precision set_precision] in *. split; [lia|]. right. exists z, y. split; [assumption|]. split; apply Z2N.id; assumption.
  - exfalso. destruct X as ((m & X) & _); [|discriminate X]. unfold called, setting_names. cbn [map In]. destruct Hn as [-> | ->]; tauto.
Qed.
Print Assumptions C56_precision_command.
(** and every later line -- in a whole session with anything in between -- keeps it so. *)
Theorem C56_preserved : forall pr es se,
  (a_precision (s_args se) + a_extra_precision (s_args se) <= 255)%N ->
  let a := s_args (session_after pr the_executor es se) in (a_precision a + a_extra_precision a <= 255)%N.
Proof.
  intros pr es se H. assert (F : precision_fits (s_args (session_after pr the_executor es se))); [|unfold precision_fits in F; cbv zeta; lia].
  apply (session_keeps precision_fits); [intros ord input se1 se' r C; exact (line_fits _ _ _ _ _ _ C)|unfold precision_fits; lia].
Qed.
Print Assumptions C56_preserved.
Theorem C56_interactive : forall pr ord tm a db evs, (a_precision a + a_extra_precision a <= 255)%N ->
  let '(u, _, _) := interactive pr ord the_executor tm a db evs in (a_precision (u_args u) + a_extra_precision (u_args u) <= 255)%N.
Proof.
  intros pr ord tm a db evs H.
  assert (F : precision_fits (u_args (fst (fst (interactive pr ord the_executor tm a db evs))))).
  { apply interactive_keeps; [intros ord0 input se1 se' r C; exact (line_fits _ _ _ _ _ _ C)|unfold precision_fits; lia]. }
  destruct (interactive pr ord the_executor tm a db evs) as [[u out] st]. cbn [fst] in F. unfold precision_fits in F. lia.
Qed.
Print Assumptions C56_interactive.
Example C56_example :
  let a := s_args (afterwards [lit "/precision 200 55"; lit "/p 201"; lit "/p 1 2 3"; lit "/p -1"; lit "/p 256"; lit "/p 0 256"] se0) in
  a_precision a = 200%N /\ a_extra_precision a = 55%N /\ is_command 10 (lit "/p 201") (lit "p") (lit "201") /\ integers (lit "200 55") [200; 55]%Z.
Proof.
  split; [vm_compute; reflexivity|]. split; [vm_compute; reflexivity|]. split; [do 2 eexists; split; [vm_compute; reflexivity|auto]|].
  apply (integers_iff Debug). eexists. split; vm_compute; reflexivity.
Qed.

(** ** C57 *)
(** The table of commands is built without a panic, and *)
Theorem C57_table : forall E, exists x, @executor_new E = Ok x /\
  (** every name and alias leads to its own command, in any state and with any arguments; *)
  (forall pr ord n arguments a s, 
     let command_is names c := called (pd_value n) names -> execute_command pr ord x n arguments a s = run_command pr ord x c arguments a s in
     command_is ["help"; "h"]%string CHelp /\ command_is ["reloadvar"]%string CReloadVar /\ command_is ["purgevar"]%string CPurgeVar /\
     command_is ["histcap"]%string CHistCap /\ command_is ["fractional"; "f"]%string CFractional /\ command_is ["radix"; "r"]%string CRadix /\
     command_is ["converttoradix"]%string CConvertToRadix /\ command_is ["upper"]%string CUpper /\
     command_is ["commas"; "comma"]%string CCommas /\ command_is ["precision"; "p"]%string CPrecision) /\
  (** any other name is an error at that name and has no effect; *)
  (forall pr ord n arguments a s, ~ In (pd_value n) all_names ->
     execute_command pr ord x n arguments a s =
       (a, s, Err (InputError (mkMP (lit "No such command: '" ++ pd_value n ++ lit "'") (Some (pd_pos n)))))).
Proof.
  intros E. exists the_executor. split; [apply executor_new_ok|]. split.
  - intros pr ord n arguments a s. cbv zeta.
    assert (K : forall names c, map lit names = command_name c :: command_aliases c -> called (pd_value n) names ->
      execute_command pr ord the_executor n arguments a s = run_command pr ord the_executor c arguments a s).
    { intros names c Hn Hi. unfold called in Hi. rewrite Hn in Hi. apply name_cases in Hi. unfold execute_command. fold (resolve_in (pd_value n)). rewrite Hi. reflexivity. }
    repeat split; apply K; reflexivity.
  - intros pr ord n arguments a s N. unfold execute_command. fold (resolve_in (pd_value n)). rewrite (unknown_command _ N). reflexivity.
Qed.
Print Assumptions C57_table.
(** /help lists every command once, alphabetically, with its description; *)
Theorem C57_help_list : forall pr ord input se se' r name arguments,
  is_command (a_radix (s_args se)) input name arguments -> name = lit "help" \/ name = lit "h" ->
  no_argument arguments -> Forall (fun c => c <> 11%N) arguments -> (* VT: see C57_help_topic *)
  calculate pr ord the_executor input se = (se', r) ->
  (exists h, s_inputs se = Some h /\ forall id, snd (input_finished h (e_db (s_env se))) <> Ok id) \/
  (r = Ok (help_text (missing (e_db (s_env se))) (missing (e_vars (s_env se)))) /\ s_args se' = s_args se /\ s_env se' = after_recording se).
Proof. exact help_line. Qed.
Print Assumptions C57_help_list.
(** and with a command name or alias describes that command, otherwise it is an error. *)
Theorem C57_help_topic : forall pr ord input se se' r name arguments,
  is_command (a_radix (s_args se)) input name arguments -> name = lit "help" \/ name = lit "h" ->
  calculate pr ord the_executor input se = (se', r) ->
  s_args se' = s_args se /\ s_env se' = after_recording se /\
  ((exists h, s_inputs se = Some h /\ forall id, snd (input_finished h (e_db (s_env se))) <> Ok id) \/
   exists pre topic post, arguments = pre ++ topic ++ post /\ Forall blank pre /\ Forall blank post /\
     (forall c w, topic = c :: w -> ~ blank c) /\ (forall c w, topic = w ++ [c] -> ~ blank c) /\
     ((topic = [] /\ r = Ok (help_text (missing (e_db (s_env se))) (missing (e_vars (s_env se))))) \/
      (exists text, r = Ok text /\ describes (missing (e_db (s_env se))) (missing (e_vars (s_env se))) topic text) \/
      (~ In topic all_names /\ exists p, r = Err (InputError (mkMP (lit "No such command: '" ++ topic ++ lit "'") (Some p)))))).
Proof. exact help_topic. Qed.
Print Assumptions C57_help_topic.
Example C57_example :
  snd (enter (lit " /nope 1") se0) = Err (InputError (mkMP (lit "No such command: 'nope'") (Some (mkPos 1 5)))) /\
  (exists t, snd (enter (lit "/h  p ") se0) = Ok t /\ firstn 33 t = lit "Usage: /precision [value [extra]]") /\
  snd (enter (lit "/help") se0) = Ok (help_text false false) /\
  map fst (help_lines true true) = sort_str (map fst (help_lines true true)) /\ List.length (help_lines true true) = 10.
Proof. split; [vm_compute; reflexivity|]. split; [eexists; split; vm_compute; reflexivity|]. vm_compute. auto. Qed.
