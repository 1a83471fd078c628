(** ProofsCalc5.v -- whole lines. *)
From Verif Require Import Base Position Num TokenTypes Errors Token Operations SavedData Variables InputHistory
                          SyntaxTree Commands Calculate SpecGrammar SpecEval SpecHistory SpecCalc.
From Verif Require Import ProofsParse ProofsParse2 ProofsParse3 ProofsEval ProofsEval2 ProofsEval3 ProofsDb ProofsDb2 ProofsDb4 ProofsPrint ProofsEditor ProofsCalc ProofsCalc2 ProofsCalc3 ProofsCalc4.
From Coq Require Import String Permutation.
Local Open Scope nat_scope.
Local Open Scope list_scope.

(** ** What the commands do to settings and state *)
Lemma u8_try_from_lt z n : u8_try_from z = Some n -> (n < 256)%N /\ Z.of_N n = z.
Proof.
  unfold u8_try_from. destruct (Z.leb_spec 0 z); [|discriminate]. destruct (Z.leb_spec z 255); [|discriminate]. cbn [andb]. intros E; injection E as <-. lia.
Qed.
Lemma parse_radix_ok pr arguments r : parse_radix_arg pr arguments = Ok (Some r) -> radix_ok r.
Proof.
  unfold parse_radix_arg. destruct (tokenize_int_list _ _ _) as [[|i [|j l]]|e|p]; try discriminate.
  destruct (Z.ltb_spec (pd_value i) 2); [discriminate|]. destruct (Z.ltb_spec 16 (pd_value i)); [discriminate|].
  intros E; apply ok_inj in E; injection E as <-. unfold radix_ok. lia.
Qed.
Lemma check_precision_ok a p e pe : valid_settings a -> check_precision a p e = Ok pe -> (fst pe < 256 /\ snd pe < 256 /\ fst pe + snd pe < 256)%N.
Proof.
  intros (_ & _ & _ & Ve). unfold check_precision. destruct (u8_try_from (pd_value p)) as [n|] eqn:U; [|discriminate]. apply u8_try_from_lt in U as (U & _).
  destruct e as [e|].
  - destruct (u8_try_from (pd_value e)) as [k|] eqn:U2; cbn [bind]; [|discriminate]. apply u8_try_from_lt in U2 as (U2 & _).
    destruct (N.ltb_spec (n + k) 256); [|discriminate]. intros E; apply ok_inj in E; subst pe. cbn. lia.
  - cbn [bind]. destruct (N.ltb_spec (n + a_extra_precision a) 256); [|discriminate]. intros E; apply ok_inj in E; subst pe. cbn. lia.
Qed.

Definition sets_settings (c : command) : bool :=
  match c with CHelp | CReloadVar | CPurgeVar | CHistCap => false | _ => true end.
Definition keeps_state (c : command) : bool :=
  match c with CReloadVar | CPurgeVar | CHistCap => false | _ => true end.
Lemma help_keeps x arguments a s a' s' r : exec_help x arguments a s = (a', s', r) -> a' = a /\ s' = s /\ (forall m t, r = Ok (m, t) -> t = []).
Proof.
  unfold exec_help, cmd_done. destruct (ptrim arguments) as [al|e|p].
  - destruct (pd_value al); [|destruct (assoc _ _)]; intros E; apply pair_equal_spec in E as [E <-]; apply pair_equal_spec in E as [<- <-];
      (split; [reflexivity|split; [reflexivity|]]); intros m t X; try discriminate X; apply ok_inj, pair_equal_spec in X as [_ X]; congruence.
  - intros E; apply pair_equal_spec in E as [E <-]; apply pair_equal_spec in E as [<- <-]. split; [reflexivity|split; [reflexivity|discriminate]].
  - intros E; apply pair_equal_spec in E as [E <-]; apply pair_equal_spec in E as [<- <-]. split; [reflexivity|split; [reflexivity|discriminate]].
Qed.
Ltac cmd_leaf E := apply pair_equal_spec in E as [E <-]; apply pair_equal_spec in E as [<- <-].
(** the commands that read or change settings leave everything else alone *)
Lemma setting_keeps pr ord x c arguments a s a' s' r : keeps_state c = true -> run_command pr ord x c arguments a s = (a', s', r) ->
  s' = s /\ (forall m t, r = Ok (m, t) -> t = []) /\ ((forall mt, r <> Ok mt) -> a' = a).
Proof.
  assert (D : forall (m m' : str) (t : list str), @Ok failure _ (m, []) = Ok (m', t) -> t = []) by (intros m m' t E; apply ok_inj, pair_equal_spec in E as [_ E]; congruence).
  intros K. destruct c; try discriminate K; cbn [run_command].
  - intros E. destruct (help_keeps _ _ _ _ _ _ _ E) as (A & B & C). auto.
  - unfold exec_bool_setting, cmd_done. cbv zeta. destruct (trim _); [|destruct (_ || _); [|destruct (_ || _)]]; intros E; cmd_leaf E;
      (split; [reflexivity|split; [intros ? ?; try discriminate; apply D|intros N; try reflexivity; exfalso; eapply N; reflexivity]]).
  - unfold exec_radix, cmd_done. destruct (parse_radix_arg pr arguments) as [[v|]|e|p]; intros E; cmd_leaf E;
      (split; [reflexivity|split; [intros ? ?; try discriminate; apply D|intros N; try reflexivity; exfalso; eapply N; reflexivity]]).
  - unfold exec_converttoradix, cmd_done. destruct (str_eqb _ _); [|destruct (parse_radix_arg pr arguments) as [[v|]|e|p]]; intros E; cmd_leaf E;
      (split; [reflexivity|split; [intros ? ?; try discriminate; apply D|intros N; try reflexivity; exfalso; eapply N; reflexivity]]).
  - unfold exec_bool_setting, cmd_done. cbv zeta. destruct (trim _); [|destruct (_ || _); [|destruct (_ || _)]]; intros E; cmd_leaf E;
      (split; [reflexivity|split; [intros ? ?; try discriminate; apply D|intros N; try reflexivity; exfalso; eapply N; reflexivity]]).
  - unfold exec_bool_setting, cmd_done. cbv zeta. destruct (trim _); [|destruct (_ || _); [|destruct (_ || _)]]; intros E; cmd_leaf E;
      (split; [reflexivity|split; [intros ? ?; try discriminate; apply D|intros N; try reflexivity; exfalso; eapply N; reflexivity]]).
  - unfold exec_precision, cmd_done. cbv zeta. destruct (tokenize_int_list _ _ _) as [[|i [|j [|k l]]]|e|p];
      try destruct (check_precision _ _ _) as [[? ?]|?|?]; intros E; cmd_leaf E;
      (split; [reflexivity|split; [intros ? ?; try discriminate; apply D|intros N; try reflexivity; exfalso; eapply N; reflexivity]]).
Qed.
Lemma others_keep_settings pr ord x c arguments a s a' s' r : sets_settings c = false -> run_command pr ord x c arguments a s = (a', s', r) -> a' = a.
Proof.
  intros K. destruct c; try discriminate K; cbn [run_command].
  - intros E. apply (help_keeps _ _ _ _ _ _ _ E).
  - unfold exec_reloadvar. destruct (tokenize_variable_list _) as [l|e|p]; [|intros E; cmd_leaf E; reflexivity..].
    destruct (e_db s); [|intros E; cmd_leaf E; reflexivity]. destruct (e_vars s); [|intros E; cmd_leaf E; reflexivity].
    destruct (reload_loop _ _ _ _ _) as [[? ?] ?]. intros E; cmd_leaf E; reflexivity.
  - unfold exec_purgevar. destruct (tokenize_variable_list _) as [l|e|p]; [|intros E; cmd_leaf E; reflexivity..].
    destruct (e_vars s); [|intros E; cmd_leaf E; reflexivity]. destruct (purge_loop _ _ _) as [[? ?] ?]. intros E; cmd_leaf E; reflexivity.
  - unfold exec_histcap. destruct (tokenize_int_list _ _ _) as [[|i [|j l]]|e|p]; try (intros E; cmd_leaf E; reflexivity).
    + destruct (e_db s); [|intros E; cmd_leaf E; reflexivity]. destruct (get_max_history_size _). intros E; cmd_leaf E; reflexivity.
    + destruct (validate_max_history_size _); [intros E; cmd_leaf E; reflexivity|]. destruct (e_db s); [|intros E; cmd_leaf E; reflexivity].
      destruct (set_max_history_size _ _). intros E; cmd_leaf E; reflexivity.
Qed.
Lemma command_settings pr ord x c arguments a s a' s' r : valid_settings a -> run_command pr ord x c arguments a s = (a', s', r) -> valid_settings a'.
Proof.
  intros V E. destruct (sets_settings c) eqn:K.
  2:{ rewrite (others_keep_settings _ _ _ _ _ _ _ _ _ _ K E). exact V. }
  pose proof V as (V1 & V2 & V3 & V4). destruct c; try discriminate K; cbn [run_command] in E.
  - unfold exec_bool_setting, cmd_done in E. cbv zeta in E. destruct (trim _); [|destruct (_ || _); [|destruct (_ || _)]]; cmd_leaf E; exact V.
  - unfold exec_radix, cmd_done in E. destruct (parse_radix_arg pr arguments) as [[v|]|e|p] eqn:P; cmd_leaf E; try exact V.
    apply parse_radix_ok in P. split; [exact P|]. split; [exact V2|]. split; assumption.
  - unfold exec_converttoradix, cmd_done in E. destruct (str_eqb _ _); [cmd_leaf E; split; [exact V1|]; split; [discriminate|]; split; assumption|].
    destruct (parse_radix_arg pr arguments) as [[v|]|e|p] eqn:P; cmd_leaf E; try exact V.
    apply parse_radix_ok in P. split; [exact V1|]. split; [|split; assumption]. intros r0 E0. cbn in E0. injection E0 as <-. exact P.
  - unfold exec_bool_setting, cmd_done in E. cbv zeta in E. destruct (trim _); [|destruct (_ || _); [|destruct (_ || _)]]; cmd_leaf E; exact V.
  - unfold exec_bool_setting, cmd_done in E. cbv zeta in E. destruct (trim _); [|destruct (_ || _); [|destruct (_ || _)]]; cmd_leaf E; exact V.
  - unfold exec_precision, cmd_done in E. cbv zeta in E. destruct (tokenize_int_list _ _ _) as [[|i [|j [|k l]]]|e|p]; try (cmd_leaf E; exact V).
    + destruct (check_precision a i None) as [[q f]|e|p] eqn:C; cmd_leaf E; try exact V. apply (check_precision_ok _ _ _ _ V) in C. cbn in C.
      split; [exact V1|]. split; [exact V2|]. split; apply C.
    + destruct (check_precision a i (Some j)) as [[q f]|e|p] eqn:C; cmd_leaf E; try exact V. apply (check_precision_ok _ _ _ _ V) in C. cbn in C.
      split; [exact V1|]. split; [exact V2|]. split; apply C.
Qed.

(** ** State after the variable and history commands *)
Lemma odb_stored s x v : odb_disk (e_db s) x v <-> stored s x v.
Proof. reflexivity. Qed.
Lemma env_odb_ok s : env_ok s -> odb_ok (e_db s).
Proof. intros (_ & B) sd. apply B. Qed.
(** effect of any command, relative to the variables it names *)
Definition named (c : command) (arguments : positioned str) (y : str) : Prop :=
  (c = CReloadVar \/ c = CPurgeVar) /\ exists l, tokenize_variable_list (pd_value arguments) = Ok l /\ In y (map pd_value l).
Lemma in_ord ord l y : iterates ord -> (In y (ord l) <-> In y l).
Proof. intros H. split; apply Permutation_in; [|apply Permutation_sym]; apply H. Qed.

Lemma histcap_spec pr arguments a s a' s' r : env_ok s -> exec_histcap pr arguments a s = (a', s', r) ->
  e_vars s' = e_vars s /\ env_ok s' /\ (e_db s = None <-> e_db s' = None) /\ (forall y v, stored s' y v -> stored s y v) /\
  (forall m t, r = Ok (m, t) -> t = []).
Proof.
  intros Hok. unfold exec_histcap.
  assert (X : forall o, e_vars s = e_vars s /\ env_ok s /\ (e_db s = None <-> e_db s = None) /\ (forall y v, stored s y v -> stored s y v) /\
     (forall m t, @Err failure (str * list str) o = Ok (m, t) -> t = [])) by (intros o; split; [reflexivity|split; [exact Hok|split; [tauto|split; [auto|discriminate]]]]).
  assert (Y : forall sd sd' (o : outcome failure (str * list str)), e_db s = Some sd -> drops (sd_db sd) (sd_db sd') ->
     (forall m t, o = Ok (m, t) -> t = []) ->
     e_vars (mkEnv (e_vars s) (Some sd')) = e_vars s /\ env_ok (mkEnv (e_vars s) (Some sd')) /\ (Some sd = None <-> e_db (mkEnv (e_vars s) (Some sd')) = None) /\
     (forall y v, stored (mkEnv (e_vars s) (Some sd')) y v -> stored s y v) /\ (forall m t, o = Ok (m, t) -> t = [])).
  { intros sd sd' o Es D Ho. split; [reflexivity|]. split.
    - destruct Hok as (A & B). split; [exact A|]. intros sd0 E. cbn in E. injection E as <-. eapply drops_ok; [exact D|]. apply B. exact Es.
    - split; [cbn; split; congruence|]. split; [|exact Ho]. intros y v (sd0 & E & H). cbn in E. injection E as <-. exists sd. split; [exact Es|]. eapply drops_disk; eauto. }
  assert (Z : forall (m m' : str) (t : list str), @Ok failure _ (m, []) = Ok (m', t) -> t = []) by (intros m m' t E; apply ok_inj, pair_equal_spec in E as [_ E]; congruence).
  destruct (tokenize_int_list _ _ _) as [[|i [|j l]]|e|p]; try (intros E; cmd_leaf E; apply X).
  - destruct (e_db s) as [sd|] eqn:Es; [|intros E; cmd_leaf E; rewrite Es; apply X].
    destruct (get_max_history_size sd) as [sd' o] eqn:G. intros E; cmd_leaf E.
    destruct (sd_call_cases _ _ _ _ G) as (P & F & C). apply (Y sd sd'); [reflexivity| |].
    + destruct C as [(u & -> & M)|[(D & _)|(D & _)]]; try (rewrite D; apply drops_refl; reflexivity).
      unfold tx_get_max, sql_meta_select in M. destruct (zassoc _ _); [|discriminate M]. apply ok_inj, pair_equal_spec in M as [_ M]. rewrite <- M. apply drops_refl. reflexivity.
    + destruct o; try discriminate. apply Z.
  - destruct (validate_max_history_size _); [intros E; cmd_leaf E; apply X|].
    destruct (e_db s) as [sd|] eqn:Es; [|intros E; cmd_leaf E; rewrite Es; apply X].
    destruct (set_max_history_size _ sd) as [sd' o] eqn:G. intros E; cmd_leaf E.
    destruct (sd_call_cases _ _ _ _ G) as (P & F & C). apply (Y sd sd'); [reflexivity| |].
    + destruct C as [(u & -> & M)|[(D & _)|(D & _)]]; try (rewrite D; apply drops_refl; reflexivity). eapply dropping_set_max. exact M.
    + destruct o; try discriminate. apply Z.
  - intros E; cmd_leaf E. split; [reflexivity|]. split; [exact Hok|]. split; [tauto|]. split; [auto|discriminate].
Qed.

Lemma touch_none id s : touch_all [] id s = (s, Ok tt).
Proof. unfold touch_all. destruct s as [[m|] d]; reflexivity. Qed.
(** the state a command leaves, before the variables it names are marked as used *)
Lemma in_names ord l y : iterates ord -> In y (ord (name_set l)) <-> In y (map pd_value l).
Proof. intros Ho. rewrite (in_ord ord _ _ Ho). apply name_set_in. Qed.
Lemma purge_command ord arguments a s a' s' r : env_ok s -> iterates ord -> exec_purgevar ord arguments a s = (a', s', r) ->
  env_ok s' /\ (e_vars s = None <-> e_vars s' = None) /\ hist_kept (e_db s) (e_db s') /\
  (forall y v, ~ named CPurgeVar arguments y -> (remembered s y v <-> remembered s' y v)) /\
  (forall y v, ~ named CPurgeVar arguments y -> (stored s y v <-> stored s' y v)) /\
  (forall y v, remembered s' y v -> remembered s y v) /\
  (forall m t, r = Ok (m, t) -> t = [] /\ exists l, tokenize_variable_list (pd_value arguments) = Ok l /\
     forall y, In y (map pd_value l) -> not_remembered s' y /\ forall v, ~ stored s' y v).
Proof.
  intros Hok Ho. unfold exec_purgevar. destruct (tokenize_variable_list _) as [l|e|p] eqn:T.
  2,3: intros E; cmd_leaf E; split; [exact Hok|]; split; [tauto|]; split; [apply hist_kept_refl|]; repeat (split; [tauto|]); discriminate.
  destruct (e_vars s) as [m|] eqn:Em.
  2:{ intros E; cmd_leaf E; split; [exact Hok|]; split; [tauto|]; split; [apply hist_kept_refl|]; repeat (split; [tauto|]); discriminate. }
  destruct (purge_loop (ord (name_set l)) m (e_db s)) as [[m' odb'] o] eqn:P. intros E; cmd_leaf E.
  destruct (purge_loop_spec _ _ _ _ _ _ (env_odb_ok _ Hok) P) as (B1 & B2 & B3 & B4 & B5 & B6 & B7 & B8).
  assert (Nm : forall y, ~ named CPurgeVar arguments y -> ~ In y (ord (name_set l))).
  { intros y H I. apply H. split; [auto|]. exists l. split; [exact T|]. apply name_set_in, (in_ord ord _ _ Ho). exact I. }
  split; [|split; [cbn; split; discriminate|split; [exact B2|]]].
  { split; [|exact B1]. intros m0 y v E0 H. cbn in E0. injection E0 as <-. destruct Hok as (A & _). eapply A; [exact Em|]. apply B5. exact H. }
  split; [|split; [|split]].
  - intros y v H. specialize (B4 y (Nm y H)). unfold remembered. cbn [e_vars]. rewrite Em. split; intros (m0 & E0 & K); injection E0 as <-; eexists; (split; [reflexivity|]); congruence.
  - intros y v H. exact (B6 y v (Nm y H)).
  - intros y v (m0 & E0 & K). cbn in E0. injection E0 as <-. exists m. split; [exact Em|apply B5; exact K].
  - intros msg t E. destruct o as [u|e|p]; try discriminate E. apply ok_inj, pair_equal_spec in E as [_ <-]. split; [reflexivity|]. exists l. split; [reflexivity|].
    intros y Hy. destruct u. destruct (B8 eq_refl y (proj2 (in_ord ord _ _ Ho) (proj2 (name_set_in l y) Hy))) as (C1 & C2). split; [exists m'; auto|]. exact C2.
Qed.
Lemma reload_command ord arguments a s a' s' r : env_ok s -> iterates ord -> exec_reloadvar ord arguments a s = (a', s', r) ->
  env_ok s' /\ (e_vars s = None <-> e_vars s' = None) /\ (e_db s = None <-> e_db s' = None) /\ hist_kept (e_db s) (e_db s') /\
  (forall y v, ~ named CReloadVar arguments y -> (remembered s y v <-> remembered s' y v)) /\
  (forall y v, stored s y v <-> stored s' y v) /\
  (forall m t, r = Ok (m, t) -> exists l, tokenize_variable_list (pd_value arguments) = Ok l /\
     forall y, In y (map pd_value l) -> (exists v, stored s y v /\ remembered s' y v) \/ ((forall v, ~ stored s y v) /\ forall v, remembered s y v <-> remembered s' y v)).
Proof.
  intros Hok Ho. unfold exec_reloadvar. destruct (tokenize_variable_list _) as [l|e|p] eqn:T.
  2,3: intros E; cmd_leaf E; split; [exact Hok|]; split; [tauto|]; split; [tauto|]; split; [apply hist_kept_refl|]; repeat (split; [tauto|]); discriminate.
  destruct (e_db s) as [sd|] eqn:Es.
  2:{ intros E; cmd_leaf E; rewrite Es; split; [exact Hok|]; split; [tauto|]; split; [tauto|]; split; [apply hist_kept_refl|]; repeat (split; [tauto|]); discriminate. }
  destruct (e_vars s) as [m|] eqn:Em.
  2:{ intros E; cmd_leaf E; rewrite Es; split; [exact Hok|]; split; [tauto|]; split; [split; discriminate|]; split; [apply hist_kept_refl|]; repeat (split; [tauto|]); discriminate. }
  destruct (reload_loop (ord (name_set l)) [] [] m sd) as [[m' sd'] o] eqn:P. intros E; cmd_leaf E.
  assert (Hr : rows_ok (sd_db sd)) by (destruct Hok as (_ & B); auto).
  destruct (reload_loop_spec _ _ _ _ _ _ _ _ Hr P) as ((B1 & B1' & _) & B2 & B3 & B4 & B5).
  assert (St : forall y v, stored s y v <-> stored (mkEnv (Some m') (Some sd')) y v).
  { intros y v. unfold stored. cbn [e_db]. rewrite Es. split; intros (sd0 & E0 & H); injection E0 as <-; eexists; (split; [reflexivity|]); congruence. }
  assert (Mm : forall y, vs_get m' y = vs_get m y -> forall v, remembered s y v <-> remembered (mkEnv (Some m') (Some sd')) y v).
  { intros y G v. unfold remembered. cbn [e_vars]. rewrite Em. split; intros (m0 & E0 & K); injection E0 as <-; eexists; (split; [reflexivity|]); congruence. }
  split.
  { split.
    - intros m0 y v E0 H. cbn in E0. injection E0 as <-. destruct (B4 y) as [G|(w & G & _ & C)]; [|assert (w = v) by congruence; subst w; exact C]. destruct Hok as (A & _). apply (A m y v Em). congruence.
    - intros sd0 E0. cbn in E0. injection E0 as <-. rewrite B1. exact Hr. }
  split; [cbn; split; discriminate|]. split; [cbn; split; discriminate|]. split; [cbn; rewrite B1; auto|]. split.
  { intros y v H. apply Mm. apply B3. intros I. apply H. split; [auto|]. exists l. split; [exact T|]. apply name_set_in, (in_ord ord _ _ Ho). exact I. }
  split; [exact St|]. intros msg t E. destruct o as [[o1 o2]|e|p]; try discriminate E. exists l. split; [reflexivity|]. intros y Hy.
  destruct (B5 o1 o2 eq_refl) as (_ & B). destruct (B y (proj2 (in_ord ord _ _ Ho) (proj2 (name_set_in l y) Hy))) as [(v & D & G)|(D & G)].
  - left. exists v. split; [exists sd; auto|]. exists m'. auto.
  - right. split; [|apply Mm; exact G]. intros v (sd0 & E0 & H). rewrite Es in E0. injection E0 as <-. exact (proj1 (not_on_disk_iff _ _ Hr) D v H).
Qed.
Lemma settled_remembered s s' y v : settled s s' -> (remembered s y v <-> remembered s' y v).
Proof. intros (V & _). unfold remembered. rewrite V. tauto. Qed.

(** a command line *)
Definition resolves (x : executor) (name : positioned str) (c : command) : Prop := assoc (resolve_alias x (pd_value name)) (x_commands x) = Some c.
Lemma body_command pr ord x input id a s a' s' r name arguments :
  valid_settings a -> env_ok s -> iterates ord -> tokenize input (a_radix a) = Ok (PCommand name arguments) ->
  calculate_body pr ord x input id a s = (a', s', r) ->
  valid_settings a' /\ env_ok s' /\ (e_vars s = None <-> e_vars s' = None) /\ (e_db s = None <-> e_db s' = None) /\
  (forall y v, (forall c, resolves x name c -> ~ named c arguments y) -> (remembered s y v <-> remembered s' y v)) /\
  (forall y v, (forall c, resolves x name c -> c <> CHistCap /\ (c = CPurgeVar -> ~ named c arguments y)) -> (stored s y v <-> stored s' y v)) /\
  (forall y v, stored s' y v -> stored s y v) /\
  ((forall c, resolves x name c -> keeps_state c = true) -> s' = s) /\
  ((forall c, resolves x name c -> c <> CHistCap) -> hist_kept (e_db s) (e_db s')) /\
  (resolves x name CPurgeVar -> forall text, r = Ok text -> exists l, tokenize_variable_list (pd_value arguments) = Ok l /\
     forall y, In y (map pd_value l) -> not_remembered s' y /\ forall v, ~ stored s' y v) /\
  (resolves x name CReloadVar -> forall text, r = Ok text -> exists l, tokenize_variable_list (pd_value arguments) = Ok l /\
     forall y, In y (map pd_value l) -> (exists v, stored s y v /\ remembered s' y v) \/ ((forall v, ~ stored s y v) /\ forall v, remembered s y v <-> remembered s' y v)).
Proof.
  intros Ha Hs Ho T. unfold calculate_body. rewrite T. unfold execute_command.
  destruct (assoc (resolve_alias x (pd_value name)) (x_commands x)) as [c|] eqn:Rc.
  2:{ intros E; cmd_leaf E. split; [exact Ha|]. split; [exact Hs|]. repeat (split; [solve [tauto|auto]|]). split; [intros _; apply hist_kept_refl|].
      unfold resolves. rewrite Rc. split; discriminate. }
  assert (Rc' : resolves x name c) by exact Rc.
  assert (Rv : forall c', resolves x name c' -> c' = c) by (unfold resolves; intros c' E; congruence).
  destruct (run_command pr ord x c arguments a s) as [[a1 s1] r1] eqn:RC. pose proof (command_settings _ _ _ _ _ _ _ _ _ _ Ha RC) as Ha1.
  (* what marking the reported variables as used does *)
  assert (Fin : forall a2 s2 r2,
     match r1 with
     | Ok (message, vars_touched) =>
         let '(s'', r0) := touch_all vars_touched id s1 in
         (a1, s'', match r0 with Ok _ => Ok message | Err e => Err e | Panic p => Panic p end)
     | Err e => (a1, s1, Err e)
     | Panic p => (a1, s1, Panic p)
     end = (a2, s2, r2) -> a2 = a1 /\ settled s1 s2 /\ (forall text, r2 = Ok text -> exists t, r1 = Ok (text, t)) /\ ((forall m t, r1 = Ok (m, t) -> t = []) -> s2 = s1)).
  { intros a2 s2 r2. destruct r1 as [[m t]|e|p].
    - destruct (touch_all t id s1) as [s3 r3] eqn:Et. intros E; cmd_leaf E. split; [reflexivity|]. split; [eapply touch_all_settled; exact Et|]. split.
      + intros text E. destruct r3; try discriminate E. apply ok_inj in E. subst m. eauto.
      + intros N. rewrite (N m t eq_refl), touch_none in Et. apply pair_equal_spec in Et as [<- _]. reflexivity.
    - intros E; cmd_leaf E. split; [reflexivity|]. split; [apply settled_refl|]. split; [discriminate|auto].
    - intros E; cmd_leaf E. split; [reflexivity|]. split; [apply settled_refl|]. split; [discriminate|auto]. }
  intros E. specialize (Fin _ _ _ E). clear E. destruct Fin as (-> & St & Txt & Same). split; [exact Ha1|].
  destruct (keeps_state c) eqn:K.
  { destruct (setting_keeps _ _ _ _ _ _ _ _ _ _ K RC) as (-> & Ht & _). rewrite (Same Ht).
    split; [exact Hs|]. repeat (split; [solve [tauto|auto]|]). split; [intros _; apply hist_kept_refl|].
    split; intros R; apply Rv in R; subst c; discriminate K. }
  pose proof (settled_same _ _ St) as (Sv1 & Sv2 & Sv3 & Sv4 & Sv5).
  assert (Kf : (forall c0, resolves x name c0 -> keeps_state c0 = true) -> False) by (intros H; rewrite (H c Rc') in K; discriminate K).
  destruct c; try discriminate K; cbn [run_command] in RC.
  - (* reloadvar *)
    destruct (reload_command _ _ _ _ _ _ _ Hs Ho RC) as (R1 & R2 & R3 & R4 & R5 & R6 & R7).
    split; [eapply settled_ok; eauto|]. split; [rewrite R2; exact Sv1|]. split; [rewrite R3; exact Sv2|].
    split; [intros y v H; rewrite (R5 y v (H _ Rc')); apply settled_remembered; exact St|].
    split; [intros y v _; rewrite R6; apply Sv5|]. split; [intros y v H; apply R6, Sv5, H|]. split; [intros H; destruct (Kf H)|].
    split; [intros _; eapply hist_kept_trans; [exact R4|apply same_odb_hist; exact (proj2 St)]|].
    split; [intros H; apply Rv in H; discriminate H|]. intros _ text Er. destruct (Txt _ Er) as (t & E1). destruct (R7 _ _ E1) as (l & El & Hl). exists l. split; [exact El|].
    intros y Hy. destruct (Hl y Hy) as [(v & A & B)|(A & B)].
    + left. exists v. split; [exact A|]. apply (settled_remembered _ _ _ _ St). exact B.
    + right. split; [exact A|]. intros v. rewrite B. apply settled_remembered. exact St.
  - (* purgevar *)
    destruct (purge_command _ _ _ _ _ _ _ Hs Ho RC) as (R1 & R2 & R3 & R4 & R5 & R6 & R7).
    assert (s' = s1) by (apply Same; intros m t E1; apply (R7 m t E1)). subst s'.
    assert (Db : e_db s = None <-> e_db s1 = None) by (destruct (e_db s), (e_db s1); cbn in R3; try contradiction; split; congruence).
    assert (Sub : forall y v, stored s1 y v -> stored s y v).
    { intros y v H. clear - Hs Ho RC H. unfold exec_purgevar in RC. destruct (tokenize_variable_list _) as [l|e|p]; [|cmd_leaf RC; exact H..].
      destruct (e_vars s) as [m|] eqn:Em; [|cmd_leaf RC; exact H]. destruct (purge_loop _ m (e_db s)) as [[m' odb'] o] eqn:P. cmd_leaf RC.
      destruct (purge_loop_spec _ _ _ _ _ _ (env_odb_ok _ Hs) P) as (_ & _ & _ & _ & _ & _ & B7 & _). exact (B7 y v H). }
    split; [exact R1|]. split; [exact R2|]. split; [exact Db|]. split; [intros y v H; apply (R4 y v (H _ Rc'))|].
    split; [intros y v H; destruct (H _ Rc') as (_ & H2); apply (R5 y v (H2 eq_refl))|]. split; [exact Sub|]. split; [intros H; destruct (Kf H)|].
    split; [intros _; exact R3|]. split; [|intros H; apply Rv in H; discriminate H].
    intros _ text Er. destruct (Txt _ Er) as (t & E1). apply (R7 _ _ E1).
  - (* histcap *)
    destruct (histcap_spec _ _ _ _ _ _ _ Hs RC) as (R1 & R2 & R3 & R4 & R5). rewrite (Same R5).
    split; [exact R2|]. split; [rewrite R1; tauto|]. split; [exact R3|]. split; [intros y v _; unfold remembered; rewrite R1; tauto|].
    split; [intros y v H; destruct (H _ Rc') as (H1 & _); congruence|]. split; [exact R4|]. split; [intros H; destruct (Kf H)|].
    split; [intros H; destruct (H _ Rc'); reflexivity|]. split; intros H; apply Rv in H; discriminate H.
Qed.
