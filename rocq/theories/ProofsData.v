(** ProofsData.v -- /histcap, /purgevar and /reloadvar in a session whose database works. *)
From Verif Require Import Base SpecDecimal ProofsShow Position Num TokenTypes Errors Token Operations SavedData Variables InputHistory
                          SyntaxTree Commands Calculate Sessions SpecLex SpecGrammar SpecEval SpecHistory SpecEditor SpecCalc SpecCommands SpecSession SpecData.
From Verif Require Import ProofsEval ProofsEval2 ProofsDb ProofsDb2 ProofsDb4 ProofsDb5 ProofsLex2 ProofsCalc ProofsCalc2 ProofsCalc3 ProofsCalc4 ProofsCalc5 ProofsCalc6
  ProofsCalc7 ProofsCalc9 ProofsCalm ProofsCommands ProofsSession2 ProofsTouch.
From Coq Require Import String Permutation Lia.
Local Open Scope nat_scope.
Local Open Scope list_scope.

Lemma recorded_line pr ord input a h m sd se' r line :
  working_session (mkSession a (Some h) (mkEnv m (Some sd))) -> shown h = Ok line ->
  calculate pr ord the_executor input (mkSession a (Some h) (mkEnv m (Some sd))) = (se', r) ->
  exists id sd1, line_recorded (sd_db sd) line id (sd_db sd1) /\ program_file (sd_db sd1) /\
    env_ok (mkEnv m (Some sd1)) /\ accepts (Some id) (Some sd1) /\
    after_recording (mkSession a (Some h) (mkEnv m (Some sd))) = mkEnv m (Some sd1) /\
    calculate_body pr ord the_executor input (Some id) a (mkEnv m (Some sd1)) = (s_args se', s_env se', r).
Proof.
  intros W Hl C. set (se := mkSession a (Some h) (mkEnv m (Some sd))) in *.
  pose proof W as (_ & Hs & R & N & _). destruct (recording_ok se Hs) as (Rok & _).
  pose proof (R sd eq_refl) as Hf. pose proof (N sd eq_refl) as Cm.
  destruct (add_to_input_history line sd) as [sd1 o] eqn:Ea.
  destruct (add_calm _ _ _ _ Cm Hf Ea) as (id & -> & Ac).
  destruct (add_cases _ _ _ _ Hf Ea) as [([=] & _)|(cap & id' & E & A1 & A2 & A3 & A4)].
  assert (id' = id) by congruence. subst id'.
  assert (AR : after_recording se = mkEnv m (Some sd1)).
  { unfold after_recording, se, input_finished. cbn [s_inputs s_env e_db e_vars]. fold (shown h). rewrite Hl, Ea. reflexivity. }
  exists id, sd1.
  destruct (file_store _ Hf) as (st & Rp). pose proof (rp_cap_pos _ _ Rp) as P. pose proof (rp_cap _ _ Rp) as Q.
  assert (cap = st_cap st) as -> by (unfold capacity in A1; congruence).
  split; [exists (st_cap st); auto|].
  assert (Pf : program_file (sd_db sd1)).
  { pose proof (recording_real se R) as RR. rewrite AR in RR. apply RR. reflexivity. }
  split; [exact Pf|]. split; [rewrite <- AR; exact Rok|]. split; [exact Ac|]. split; [exact AR|].
  unfold calculate in C. unfold se in C at 1. cbn [s_inputs] in C. unfold se in C. cbn [s_env s_args e_db e_vars] in C.
  unfold input_finished in C. fold (shown h) in C. rewrite Hl, Ea in C.
  destruct (calculate_body pr ord the_executor input (Some id) a (mkEnv m (Some sd1))) as [[a' s'] r'] eqn:B.
  apply pair_equal_spec in C as [<- <-]. reflexivity.
Qed.

Lemma command_body pr ord input id a s name arguments c : is_command (a_radix a) input name arguments -> resolve_in name = Some c ->
  exists arg, pd_value arg = arguments /\
  calculate_body pr ord the_executor input id a s =
  match run_command pr ord the_executor c arg a s with
  | (a', s', Ok (message, vars_touched)) =>
      let '(s'', r) := touch_all vars_touched id s' in
      (a', s'', match r with Ok _ => Ok message | Err e => Err e | Panic p => Panic p end)
  | (a', s', Err e) => (a', s', Err e)
  | (a', s', Panic p) => (a', s', Panic p)
  end.
Proof.
  intros (n & arg & T & En & Ea) R. exists arg. split; [exact Ea|]. unfold calculate_body. rewrite T. unfold execute_command. fold (resolve_in (pd_value n)). rewrite En, R. reflexivity.
Qed.
Lemma touch_none id s : touch_all [] id s = (s, Ok tt).
Proof. unfold touch_all. destruct s as [[m|] d]; reflexivity. Qed.

Lemma histcap_line pr ord input a h m sd se' r line arguments :
  working_session (mkSession a (Some h) (mkEnv m (Some sd))) -> shown h = Ok line ->
  is_command (a_radix a) input (lit "histcap") arguments ->
  calculate pr ord the_executor input (mkSession a (Some h) (mkEnv m (Some sd))) = (se', r) ->
  exists id d1 sd', line_recorded (sd_db sd) line id d1 /\ s_args se' = a /\ s_env se' = mkEnv m (Some sd') /\
    ((integers arguments [] /\ sd_db sd' = d1 /\ exists cap, capacity d1 cap /\ r = Ok (in_decimal cap)) \/
     (exists n, integers arguments [n] /\ (1 <= n)%Z /\ r = Ok (lit "Done") /\
        capacity (sd_db sd') n /\ inputs_of (sd_db sd') = newest n (inputs_of d1) /\
        forall y q k, saved (sd_db sd') y q k <-> saved d1 y q k /\ In k (ids_of (sd_db sd'))) \/
     (~ integers arguments [] /\ (forall n, integers arguments [n] -> (n < 1)%Z) /\ sd_db sd' = d1 /\ exists e, r = Err (InputError e))).
Proof.
  intros W Hl Hc C. destruct (recorded_line _ _ _ _ _ _ _ _ _ _ W Hl C) as (id & sd1 & L & Pf & Ok1 & Ac & AR & B).
  exists id, (sd_db sd1). destruct (command_body pr ord input (Some id) a (mkEnv m (Some sd1)) _ _ CHistCap Hc ltac:(vm_compute; reflexivity)) as (arg & Ea & Bb).
  rewrite Bb in B. clear Bb. cbn [run_command] in B. unfold exec_histcap in B. rewrite Ea in B. cbn [e_db e_vars] in B.
  destruct (file_store _ Pf) as (st & Rp). pose proof (accepts_calm _ _ Ac) as Cm. specialize (Cm sd1 eq_refl).
  destruct (tokenize_int_list pr arguments 10) as [[|i [|j l]]|e|p] eqn:T.
  - destruct (get_max_history_size sd1) as [sd' o] eqn:G. destruct (calm_call _ _ _ _ Cm G) as (_ & K).
    unfold tx_get_max, sql_meta_select in K. rewrite (rp_cap _ _ Rp) in K. destruct K as (-> & K). rewrite touch_none in B.
    apply pair_equal_spec in B as [B <-]. apply pair_equal_spec in B as [<- <-]. exists sd'. split; [exact L|]. split; [reflexivity|]. split; [reflexivity|].
    left. split; [apply (integers_inj _ _ _ _ T); reflexivity|]. split; [exact K|]. exists (st_cap st). split; [exact (rp_cap _ _ Rp)|]. rewrite show_Z_decimal. reflexivity.
  - pose proof (fun zs => integers_inj _ _ _ zs T) as J. cbn [map] in J. unfold validate_max_history_size in B. destruct (Z.ltb (pd_value i) 1) eqn:V.
    + apply pair_equal_spec in B as [B <-]. apply pair_equal_spec in B as [<- <-]. exists sd1. split; [exact L|]. split; [reflexivity|]. split; [reflexivity|].
      right; right. split; [rewrite J; discriminate|]. split; [|split; [reflexivity|eexists; reflexivity]]. intros n Hn. apply J in Hn. injection Hn as ->. apply Z.ltb_lt. exact V.
    + apply Z.ltb_ge in V. destruct (set_max_history_size (pd_value i) sd1) as [sd' o] eqn:G. destruct (calm_call _ _ _ _ Cm G) as (_ & K).
      destruct (set_max_spec _ _ _ Rp V) as (d' & M & Rp'). rewrite M in K. destruct K as (-> & K). rewrite touch_none in B.
      apply pair_equal_spec in B as [B <-]. apply pair_equal_spec in B as [<- <-]. exists sd'. split; [exact L|]. split; [reflexivity|]. split; [reflexivity|].
      right; left. exists (pd_value i). split; [apply J; reflexivity|]. split; [exact V|]. split; [reflexivity|]. rewrite K.
      cbn [spec_call] in Rp'. destruct (Z.ltb_spec (pd_value i) 1) as [X|_]; [lia|]. cbn [fst] in Rp'.
      split; [exact (rp_cap _ _ Rp')|]. split; [rewrite (rep_inputs _ _ Rp'), (rep_inputs _ _ Rp); reflexivity|].
      intros y q k. rewrite (rep_saved _ _ _ _ _ Rp'), (rep_saved _ _ _ _ _ Rp), (rep_ids _ _ Rp'). rewrite shrink_saved. reflexivity.
  - pose proof (fun zs => integers_inj _ _ _ zs T) as J. cbn [map] in J.
    apply pair_equal_spec in B as [B <-]. apply pair_equal_spec in B as [<- <-]. exists sd1. split; [exact L|]. split; [reflexivity|]. split; [reflexivity|].
    right; right. split; [rewrite J; discriminate|]. split; [|split; [reflexivity|eexists; reflexivity]]. intros n Hn. apply J in Hn. discriminate Hn.
  - assert (N : forall zs, ~ integers arguments zs) by (intros zs; apply (integers_none pr); rewrite T; discriminate).
    apply pair_equal_spec in B as [B <-]. apply pair_equal_spec in B as [<- <-]. exists sd1. split; [exact L|]. split; [reflexivity|]. split; [reflexivity|].
    right; right. split; [apply N|]. split; [|split; [reflexivity|eexists; reflexivity]]. intros n Hn. destruct (N _ Hn).
  - exfalso. exact (proj2 (tokenize_int_list_spec pr arguments 10 eq_refl) p T).
Qed.

(** ** /purgevar *)
Lemma clear_saved x d d' : sql_var_delete x d = Ok (tt, d') -> forall y q k, saved d' y q k <-> y <> x /\ saved d y q k.
Proof.
  unfold sql_var_delete. intros E; apply ok_inj, pair_equal_spec in E as [_ <-]. intros y q k. split.
  - intros (r & Hr & Hn & H). apply filter_In in Hr as [Hr X]. split; [|exists r; auto]. intros ->. rewrite Hn, (proj2 (str_eqb_spec x x) eq_refl) in X. discriminate X.
  - intros (Hy & r & Hr & Hn & H). exists r. split; [|auto]. apply filter_In. split; [exact Hr|]. destruct (str_dec (v_name r) x) as [X|X]; [congruence|reflexivity].
Qed.
Lemma purge_loop_saved names : forall m sd m' odb', calm sd -> purge_loop names m (Some sd) = (m', odb', Ok tt) ->
  (forall y, vs_get m' y = if in_dec (list_eq_dec N.eq_dec) y names then None else vs_get m y) /\
  exists sd', odb' = Some sd' /\ calm sd' /\ forall y q k, saved (sd_db sd') y q k <-> ~ In y names /\ saved (sd_db sd) y q k.
Proof.
  induction names as [|x names IH]; intros m sd m' odb' C E; cbn [purge_loop] in E.
  - apply pair_equal_spec in E as [E _]. apply pair_equal_spec in E as [<- <-]. split; [reflexivity|]. exists sd. split; [reflexivity|]. split; [exact C|]. cbn. tauto.
  - destruct (vs_purge m x (Some sd)) as [[m1 odb1] r1] eqn:T. unfold vs_purge in T. cbv zeta in T. unfold db_result in T.
    destruct (clear_variable x sd) as [sd1 o] eqn:Cl. cbn [fst snd] in T. apply pair_equal_spec in T as [T <-]. apply pair_equal_spec in T as [<- <-].
    destruct (calm_call _ _ _ _ C Cl) as (C1 & K). unfold tx_clear_variable in K. destruct (sql_var_delete x (sd_db sd)) as [[[] d']|e|p] eqn:M; try discriminate M.
    destruct K as (-> & K). destruct (IH _ _ _ _ C1 E) as (A & sd' & -> & C' & S). pose proof (clear_saved _ _ _ M) as Cs. split.
    + intros y. rewrite A. destruct (in_dec (list_eq_dec N.eq_dec) y names) as [I|I]; destruct (in_dec (list_eq_dec N.eq_dec) y (x :: names)) as [I'|I']; cbn [In] in I'; try tauto; try reflexivity.
      * rewrite vs_get_remove. destruct I' as [-> |I']; [|contradiction]. rewrite (proj2 (str_eqb_spec y y) eq_refl). reflexivity.
      * rewrite vs_get_remove. rewrite (proj2 (str_eqb_false y x)); [reflexivity|]. intros ->. auto.
    + exists sd'. split; [reflexivity|]. split; [exact C'|]. intros y q k. rewrite S, K, Cs. cbn [In]. intuition congruence.
Qed.

Lemma variable_list_iff arguments names : variable_list arguments names <-> exists l, tokenize_variable_list arguments = Ok l /\ names = map pd_value l.
Proof.
  destruct (tokenize_variable_list_spec arguments) as (S & _). unfold variable_list. split.
  - intros (A & B & ts & R & E). exists (map (fun t => mkPositioned (match pd_value t with TVariable y => y | _ => [] end) (pd_pos t)) ts).
    assert (K : forall ts names, map pd_value ts = map TVariable names ->
      map (fun x => mkPositioned (TVariable (pd_value x)) (pd_pos x)) (map (fun t => mkPositioned (match pd_value t with TVariable y => y | _ => [] end) (pd_pos t)) ts) = ts /\
      names = map pd_value (map (fun t => mkPositioned (match pd_value t with TVariable y => y | _ => [] end) (pd_pos t)) ts)).
    { clear. induction ts as [|[t p] ts IH]; intros [|y names] E; try discriminate E; [split; reflexivity|]. cbn [map pd_value pd_pos] in *. injection E as -> E.
      destruct (IH _ E) as (A & B). rewrite A, <- B. split; reflexivity. }
    destruct (K _ _ E) as (K1 & K2). split; [|exact K2]. apply S. rewrite K1. auto.
  - intros (l & T & ->). apply S in T as (A & B & R). split; [exact A|]. split; [exact B|]. eexists. split; [exact R|]. rewrite !map_map. reflexivity.
Qed.
Lemma remembered_iff m db y q : remembered (mkEnv (Some m) db) y q <-> vs_get m y = Some q.
Proof. unfold remembered. cbn [e_vars]. split; [intros (m0 & [= <-] & H); exact H|eauto]. Qed.
Lemma body_history a' se' pr ord input id a m sd1 r name arguments c : valid_settings a -> env_ok (mkEnv (Some m) (Some sd1)) -> iterates ord ->
  is_command (a_radix a) input name arguments -> resolve_in name = Some c -> c <> CHistCap ->
  calculate_body pr ord the_executor input id a (mkEnv (Some m) (Some sd1)) = (a', se', r) ->
  forall sd', e_db se' = Some sd' -> same_history (sd_db sd1) (sd_db sd').
Proof.
  intros Ha Ok1 Ho (n & arg & T & En & Ea) R Nc B sd' E.
  destruct (body_command _ _ _ _ _ _ _ _ _ _ _ _ Ha Ok1 Ho T B) as (_ & _ & _ & _ & _ & _ & _ & _ & K & _).
  assert (H : hist_kept (Some sd1) (e_db se')).
  { apply K. intros c' Rc' ->. unfold resolves in Rc'. rewrite En in Rc'. fold (resolve_in name) in Rc'. congruence. }
  rewrite E in H. destruct (hist_kept_inputs _ _ H) as (H1 & H2). split; [exact H1|exact H2].
Qed.

Lemma purge_line pr ord input a h m sd se' r line arguments :
  working_session (mkSession a (Some h) (mkEnv (Some m) (Some sd))) -> shown h = Ok line -> iterates ord ->
  is_command (a_radix a) input (lit "purgevar") arguments ->
  calculate pr ord the_executor input (mkSession a (Some h) (mkEnv (Some m) (Some sd))) = (se', r) ->
  exists id d1 sd', line_recorded (sd_db sd) line id d1 /\ s_args se' = a /\ e_db (s_env se') = Some sd' /\ same_history d1 (sd_db sd') /\
    ((exists names, variable_list arguments names /\ r = Ok (lit "Done") /\
        (forall y q, remembered (s_env se') y q <-> ~ In y names /\ remembered (mkEnv (Some m) (Some sd)) y q) /\
        (forall y q k, saved (sd_db sd') y q k <-> ~ In y names /\ saved d1 y q k)) \/
     ((forall names, ~ variable_list arguments names) /\ (exists e, r = Err (InputError e)) /\ e_vars (s_env se') = Some m /\ sd_db sd' = d1)).
Proof.
  intros W Hl Ho Hc C. destruct (recorded_line _ _ _ _ _ _ _ _ _ _ W Hl C) as (id & sd1 & L & Pf & Ok1 & Ac & AR & B).
  exists id, (sd_db sd1). pose proof (body_history _ _ _ _ _ _ _ _ _ _ _ _ _ (proj1 W) Ok1 Ho Hc ltac:(vm_compute; reflexivity) ltac:(discriminate) B) as SH.
  destruct (command_body pr ord input (Some id) a (mkEnv (Some m) (Some sd1)) _ _ CPurgeVar Hc ltac:(vm_compute; reflexivity)) as (arg & Ea & Bb).
  rewrite Bb in B. clear Bb. cbn [run_command] in B. unfold exec_purgevar in B. rewrite Ea in B. cbn [e_db e_vars] in B.
  pose proof (accepts_calm _ _ Ac) as Cm. pose proof (Cm sd1 eq_refl) as Cm1.
  destruct (tokenize_variable_list arguments) as [l|e|p] eqn:T.
  - destruct (purge_loop (ord (name_set l)) m (Some sd1)) as [[m' db'] r0] eqn:P.
    destruct (purge_loop_calm _ _ _ _ _ _ Cm P) as (-> & _). rewrite touch_none in B.
    apply pair_equal_spec in B as [B <-]. apply pair_equal_spec in B as [<- Es]. rewrite <- Es in SH |- *. cbn [e_db] in SH |- *.
    destruct (purge_loop_saved _ _ _ _ _ Cm1 P) as (Pm & sd' & -> & _ & Ps). exists sd'. split; [exact L|]. split; [reflexivity|]. split; [reflexivity|].
    split; [apply SH; reflexivity|]. left. exists (map pd_value l).
    assert (Hin : forall y, In y (ord (name_set l)) <-> In y (map pd_value l)) by (intros y; apply in_names, Ho).
    split; [apply (variable_list_iff arguments); exists l; auto|]. split; [reflexivity|]. split.
    + intros y q. rewrite !remembered_iff, Pm, <- Hin. destruct (in_dec (list_eq_dec N.eq_dec) y (ord (name_set l))); [split; [discriminate|tauto]|tauto].
    + intros y q k. rewrite Ps, Hin. reflexivity.
  - apply pair_equal_spec in B as [B <-]. apply pair_equal_spec in B as [<- Es]. rewrite <- Es in SH |- *. exists sd1. split; [exact L|]. split; [reflexivity|]. split; [reflexivity|].
    split; [apply SH; reflexivity|]. right. split; [intros names V; apply variable_list_iff in V as (l & E & _); congruence|]. split; [eexists; reflexivity|]. auto.
  - exfalso. exact (proj2 (tokenize_variable_list_spec arguments) p T).
Qed.

(** ** /reloadvar *)
Definition joined (out : str) (rows : list str) : str :=
  match out, rows with
  | [], _ => join_rows rows
  | _, [] => out
  | _, _ => out ++ c_newline :: join_rows rows
  end.
Lemma fraction_same q : show_ratio q = fraction_text q.
Proof. unfold show_ratio, fraction_text. rewrite <- !show_Z_decimal. destruct (Qden q); rewrite <- ?show_Z_decimal; reflexivity. Qed.
Lemma row_nonempty d y row : reload_row d y row -> row <> [].
Proof. intros [q k _|_]; [discriminate|]. destruct y; discriminate. Qed.
Lemma joined_step out row rows : row <> [] ->
  joined (match out with [] => [] | _ => out ++ [c_newline] end ++ row) rows = joined out (row :: rows).
Proof.
  intros N. destruct out as [|c out]; cbn [app joined].
  - destruct row as [|b row]; [destruct (N eq_refl)|]. cbn [joined join_rows]. destruct rows; reflexivity.
  - destruct rows as [|r2 rows]; cbn [join_rows app]; rewrite <- ?app_assoc; reflexivity.
Qed.

Lemma saved_disk d y q : on_disk d y q <-> exists k, saved d y q k.
Proof.
  unfold on_disk, saved, row_holds. split.
  - intros (r & A & B & C & D & E). exists (v_used r), r. auto 8.
  - intros (k & r & A & B & C & D & E & F). exists r. auto 8.
Qed.
Lemma reload_rows names : forall out touched m sd m' sd' o t, rows_ok (sd_db sd) ->
  reload_loop names out touched m sd = (m', sd', Ok (o, t)) ->
  exists rows, Forall2 (reload_row (sd_db sd)) names rows /\ o = joined out rows.
Proof.
  induction names as [|x names IH]; intros out touched m sd m' sd' o t Hok E; cbn [reload_loop] in E.
  - apply pair_equal_spec in E as [_ E]. apply ok_inj, pair_equal_spec in E as [<- _]. exists []. split; [constructor|]. destruct out; reflexivity.
  - cbv zeta in E. unfold vs_reload in E. destruct (get_variable x sd) as [sd1 o1] eqn:G.
    destruct (get_variable_spec _ _ _ _ Hok G) as ((R1 & _) & C).
    assert (Hok1 : rows_ok (sd_db sd1)) by (rewrite R1; exact Hok).
    destruct C as [(v & -> & D & Cv)|[(-> & D)|(e & ->)]].
    + destruct (IH _ _ _ _ _ _ _ _ Hok1 E) as (rows & F & ->). rewrite R1 in F. apply saved_disk in D as (k & D).
      assert (Rw : reload_row (sd_db sd) x (lit "Set " ++ x ++ lit " to " ++ show_ratio v)) by (rewrite fraction_same; econstructor; exact D).
      eexists. split; [constructor; [exact Rw|exact F]|]. rewrite <- joined_step by (eapply row_nonempty; exact Rw). reflexivity.
    + destruct (IH _ _ _ _ _ _ _ _ Hok1 E) as (rows & F & ->). rewrite R1 in F.
      assert (Rw : reload_row (sd_db sd) x (x ++ lit " unchanged")).
      { apply row_unchanged. intros q k S. apply (proj1 (not_on_disk_iff _ _ Hok) D q). apply saved_disk. eauto. }
      eexists. split; [constructor; [exact Rw|exact F]|]. rewrite <- joined_step by (eapply row_nonempty; exact Rw). reflexivity.
    + apply pair_equal_spec in E as [_ E]. discriminate E.
Qed.

Lemma names_once ord l : iterates ord -> each_once (map pd_value l) (ord (name_set l)).
Proof. intros Ho. split; [eapply Permutation_NoDup; [apply Permutation_sym, Ho|apply name_set_nodup]|]. intros y. apply in_names, Ho. Qed.
Lemma reload_line pr ord input a h m sd se' r line arguments :
  working_session (mkSession a (Some h) (mkEnv (Some m) (Some sd))) -> shown h = Ok line -> iterates ord ->
  is_command (a_radix a) input (lit "reloadvar") arguments ->
  calculate pr ord the_executor input (mkSession a (Some h) (mkEnv (Some m) (Some sd))) = (se', r) ->
  exists id d1 sd', line_recorded (sd_db sd) line id d1 /\ s_args se' = a /\ e_db (s_env se') = Some sd' /\ same_history d1 (sd_db sd') /\
    ((exists names order rows, variable_list arguments names /\ each_once names order /\
        Forall2 (reload_row d1) order rows /\ r = Ok (join_rows rows) /\
        (forall y q, remembered (s_env se') y q <->
           (In y names /\ exists k, saved d1 y q k) \/
           (~ (In y names /\ exists q' k, saved d1 y q' k) /\ remembered (mkEnv (Some m) (Some sd)) y q)) /\
        (forall y q k, saved (sd_db sd') y q k <->
           (~ In y names /\ saved d1 y q k) \/ (In y names /\ k = id /\ exists k0, saved d1 y q k0))) \/
     ((forall names, ~ variable_list arguments names) /\ (exists e, r = Err (InputError e)) /\ e_vars (s_env se') = Some m /\ sd_db sd' = d1)).
Proof.
  intros W Hl Ho Hc C. destruct (recorded_line _ _ _ _ _ _ _ _ _ _ W Hl C) as (id & sd1 & L & Pf & Ok1 & Ac & AR & B).
  exists id, (sd_db sd1). pose proof (body_history _ _ _ _ _ _ _ _ _ _ _ _ _ (proj1 W) Ok1 Ho Hc ltac:(vm_compute; reflexivity) ltac:(discriminate) B) as SH.
  destruct (command_body pr ord input (Some id) a (mkEnv (Some m) (Some sd1)) _ _ CReloadVar Hc ltac:(vm_compute; reflexivity)) as (arg & Ea & Bb).
  rewrite Bb in B. clear Bb. cbn [run_command] in B. unfold exec_reloadvar in B. rewrite Ea in B. cbn [e_db e_vars] in B.
  pose proof (accepts_calm _ _ Ac) as Cm. pose proof (Cm sd1 eq_refl) as Cm1. pose proof (file_rows _ Pf) as Hrow.
  destruct (tokenize_variable_list arguments) as [l|e|p] eqn:T.
  - destruct (reload_loop (ord (name_set l)) [] [] m sd1) as [[m' sd2] r0] eqn:P.
    destruct (reload_loop_calm _ _ _ _ _ _ _ _ Cm1 Hrow P) as (([o t] & ->) & Cm2 & Ed2). unfold lift_rt, map_err in B. cbv iota beta in B.
    destruct (reload_loop_spec _ _ _ _ _ _ _ _ Hrow P) as (_ & _ & Rm & _ & Rt). destruct (Rt _ _ eq_refl) as (Et & Rn). cbn [app] in Et.
    destruct (reload_rows _ _ _ _ _ _ _ _ _ Hrow P) as (rows & F & Eo). cbn [joined] in Eo.
    assert (Ac2 : accepts (Some id) (Some sd2)).
    { destruct Ac as (_ & Ac). split; [exact Cm2|]. cbn [accepts] in Ac. rewrite Ed2. exact Ac. }
    destruct (touch_all t (Some id) (mkEnv (Some m') (Some sd2))) as [s'' rt] eqn:Tt.
    destruct (touch_all_calm _ _ (mkEnv (Some m') (Some sd2)) _ _ Ac2 Tt) as (-> & _).
    destruct (touch_all_moved _ _ m' sd2 (mkEnv (Some m') (Some sd2)) _ eq_refl eq_refl Tt) as (Em & sd' & Es & Mv).
    apply pair_equal_spec in B as [B <-]. apply pair_equal_spec in B as [<- Ese]. rewrite <- Ese in SH |- *.
    exists sd'. split; [exact L|]. split; [reflexivity|]. split; [exact Es|]. split; [apply SH; exact Es|].
    assert (Hin : forall y, In y (ord (name_set l)) <-> In y (map pd_value l)) by (intros y; apply in_names, Ho).
    left. exists (map pd_value l), (ord (name_set l)), rows. split; [apply (variable_list_iff arguments); exists l; auto|]. split; [apply names_once, Ho|]. split; [exact F|].
    split; [rewrite Eo; reflexivity|]. split.
    + intros y q. assert (Er : remembered s'' y q <-> vs_get m' y = Some q) by (unfold remembered; rewrite Em; split; [intros (m0 & [= <-] & H); exact H|eauto]).
      rewrite Er, remembered_iff, <- Hin. destruct (in_dec (list_eq_dec N.eq_dec) y (ord (name_set l))) as [I|I].
      2:{ rewrite (Rm y I). tauto. }
      destruct (Rn y I) as [(v & D & G)|(D & G)].
      * rewrite G. apply saved_disk in D as (k & D). split.
        { intros [= <-]. left. eauto. }
        { intros [(_ & k' & D')|(N & _)]; [|destruct N; eauto]. f_equal.
          assert (Dv : on_disk (sd_db sd1) y v) by (apply saved_disk; eauto). assert (Dq : on_disk (sd_db sd1) y q) by (apply saved_disk; eauto).
          eapply on_disk_inj; eauto. }
      * assert (Nn : forall q k, ~ saved (sd_db sd1) y q k) by (intros q0 k0 S; apply (proj1 (not_on_disk_iff _ _ Hrow) D q0), saved_disk; eauto).
        rewrite G. split; [intros E; right; split; [intros (_ & q' & k & S); exact (Nn _ _ S)|exact E]|].
        intros [(_ & k & S)|(_ & S)]; [destruct (Nn _ _ S)|exact S].
    + intros y q k. rewrite (Mv y q k), Et, Ed2, Hin. tauto.
  - apply pair_equal_spec in B as [B <-]. apply pair_equal_spec in B as [<- Es]. rewrite <- Es in SH |- *. exists sd1. split; [exact L|]. split; [reflexivity|]. split; [reflexivity|].
    split; [apply SH; reflexivity|]. right. split; [intros names V; apply variable_list_iff in V as (l & E & _); congruence|]. split; [eexists; reflexivity|]. auto.
  - exfalso. exact (proj2 (tokenize_variable_list_spec arguments) p T).
Qed.

(** ** Without a database *)
Lemma no_database pr ord input a inputs v se' r : (forall h, inputs = Some h -> exists line, shown h = Ok line) ->
  calculate pr ord the_executor input (mkSession a inputs (mkEnv v None)) = (se', r) ->
  calculate_body pr ord the_executor input None a (mkEnv v None) = (s_args se', s_env se', r).
Proof.
  intros Hl C. unfold calculate in C. cbn [s_inputs s_env s_args e_db e_vars] in C. destruct inputs as [h|].
  - destruct (Hl h eq_refl) as (line & L). unfold input_finished in C. fold (shown h) in C. rewrite L in C.
    destruct (calculate_body pr ord the_executor input None a (mkEnv v None)) as [[a' s'] r']. apply pair_equal_spec in C as [<- <-]. reflexivity.
  - destruct (calculate_body pr ord the_executor input None a (mkEnv v None)) as [[a' s'] r']. apply pair_equal_spec in C as [<- <-]. reflexivity.
Qed.
Lemma purge_memory names : forall m, exists m', purge_loop names m None = (m', None, Ok tt) /\
  forall y, vs_get m' y = if in_dec (list_eq_dec N.eq_dec) y names then None else vs_get m y.
Proof.
  induction names as [|x names IH]; intros m; cbn [purge_loop]; [exists m; split; reflexivity|].
  unfold vs_purge. cbv zeta iota beta. destruct (IH (vs_remove m x)) as (m' & E & A). exists m'. split; [exact E|].
  intros y. rewrite A. destruct (in_dec (list_eq_dec N.eq_dec) y names) as [I|I]; destruct (in_dec (list_eq_dec N.eq_dec) y (x :: names)) as [I'|I']; cbn [In] in I'; try tauto; try reflexivity.
  * rewrite vs_get_remove. destruct I' as [-> |I']; [|contradiction]. rewrite (proj2 (str_eqb_spec y y) eq_refl). reflexivity.
  * rewrite vs_get_remove. rewrite (proj2 (str_eqb_false y x)); [reflexivity|]. intros ->. auto.
Qed.
Lemma without_database pr ord input a inputs v se' r name arguments :
  (forall h, inputs = Some h -> exists line, shown h = Ok line) -> iterates ord ->
  is_command (a_radix a) input name arguments ->
  calculate pr ord the_executor input (mkSession a inputs (mkEnv v None)) = (se', r) ->
  let unavailable what := r = Err (InputError (mkMP (lit what) None)) /\ s_args se' = a /\ s_env se' = mkEnv v None in
  (name = lit "histcap" -> integers arguments [] \/ (exists n, integers arguments [n] /\ (1 <= n)%Z) -> unavailable "Database unavailable"%string) /\
  (name = lit "reloadvar" -> (exists names, variable_list arguments names) -> unavailable "Database unavailable"%string) /\
  (name = lit "purgevar" -> forall names, variable_list arguments names ->
     (v = None -> unavailable "Variable store unavailable"%string) /\
     forall m, v = Some m -> r = Ok (lit "Done") /\ s_args se' = a /\ e_db (s_env se') = None /\
       forall y q, remembered (s_env se') y q <-> ~ In y names /\ remembered (mkEnv v None) y q).
Proof.
  intros Hl Ho Hc C. pose proof (no_database _ _ _ _ _ _ _ _ Hl C) as B. cbv zeta. split; [|split]; intros ->.
  - intros I. destruct (command_body pr ord input None a (mkEnv v None) _ _ CHistCap Hc ltac:(vm_compute; reflexivity)) as (arg & Ea & Bb).
    rewrite Bb in B. clear Bb. cbn [run_command] in B. unfold exec_histcap in B. rewrite Ea in B. cbn [e_db e_vars] in B.
    destruct I as [I|(n & I & Hn)]; apply (integers_iff pr) in I as (l & T & El).
    + destruct l; [|discriminate El]. rewrite T in B. apply pair_equal_spec in B as [B <-]. apply pair_equal_spec in B as [<- <-]. auto.
    + destruct l as [|i [|j l]]; try discriminate El. injection El as ->. rewrite T in B. unfold validate_max_history_size in B.
      destruct (Z.ltb_spec (pd_value i) 1) as [X|_]; [lia|]. apply pair_equal_spec in B as [B <-]. apply pair_equal_spec in B as [<- <-]. auto.
  - intros (names & V). apply variable_list_iff in V as (l & T & ->). destruct (command_body pr ord input None a (mkEnv v None) _ _ CReloadVar Hc ltac:(vm_compute; reflexivity)) as (arg & Ea & Bb).
    rewrite Bb in B. clear Bb. cbn [run_command] in B. unfold exec_reloadvar in B. rewrite Ea, T in B. cbn [e_db e_vars] in B.
    apply pair_equal_spec in B as [B <-]. apply pair_equal_spec in B as [<- <-]. auto.
  - intros names V. apply variable_list_iff in V as (l & T & ->). destruct (command_body pr ord input None a (mkEnv v None) _ _ CPurgeVar Hc ltac:(vm_compute; reflexivity)) as (arg & Ea & Bb).
    rewrite Bb in B. clear Bb. cbn [run_command] in B. unfold exec_purgevar in B. rewrite Ea, T in B. cbn [e_db e_vars] in B. split.
    + intros ->. apply pair_equal_spec in B as [B <-]. apply pair_equal_spec in B as [<- <-]. auto.
    + intros m ->. destruct (purge_memory (ord (name_set l)) m) as (m' & P & Pm). rewrite P in B. rewrite touch_none in B.
      apply pair_equal_spec in B as [B <-]. apply pair_equal_spec in B as [<- <-]. split; [reflexivity|]. split; [reflexivity|]. split; [reflexivity|].
      assert (Hin : forall y, In y (ord (name_set l)) <-> In y (map pd_value l)) by (intros y; apply in_names, Ho).
      intros y q. rewrite !remembered_iff, Pm, <- Hin. destruct (in_dec (list_eq_dec N.eq_dec) y (ord (name_set l))); [split; [discriminate|tauto]|tauto].
Qed.
