(** ProofsCalc9.v -- variables used in a line, recording on disk, one-shot mode. *)
From Verif Require Import Base Position Num TokenTypes Errors Token SavedData Variables InputHistory
  SyntaxTree Commands Calculate Editor Sessions SpecGrammar SpecEval SpecHistory SpecEditor SpecCalc ProofsNum ProofsEval ProofsEval2 ProofsEval3 ProofsParse
  ProofsDb ProofsDb2 ProofsDb3 ProofsDb4 ProofsDb5 ProofsEditor ProofsEditor2 ProofsEditor4
  ProofsCalc ProofsCalc2 ProofsCalc3 ProofsCalc4 ProofsCalc5 ProofsCalc6 ProofsCalc7 ProofsCalc8.
From Coq Require Import String Permutation Lia.
Local Open Scope nat_scope.
Local Open Scope list_scope.

(** every variable token of an expression is a leaf of its tree *)
Definition leaf_of (ts : list ptoken) (n : node) : Prop := forall x p, In (tk (TVariable x) p) ts -> subnode (NVar x p) n.
Lemma derives_leaves :
  (forall k ts n, derives k ts n -> leaf_of ts n) /\
  (forall ts ns, derives_args ts ns -> forall x p, In (tk (TVariable x) p) ts -> exists n, In n ns /\ subnode (NVar x p) n) /\
  (forall ts ns, derives_list ts ns -> forall x p, In (tk (TVariable x) p) ts -> exists n, In n ns /\ subnode (NVar x p) n).
Proof.
  apply derives_mutind; unfold leaf_of; intros.
  - destruct H as [H|[]]. discriminate H.
  - destruct H as [H|[]]. injection H as <- <-. constructor.
  - destruct H1 as [E|Hin]; [discriminate E|]. constructor. auto.
  - destruct H1 as [E|Hin]; [discriminate E|]. apply in_app_iff in Hin as [Hin|[E|[]]]; [|discriminate E]. constructor. auto.
  - destruct H2 as [E|Hin]; [discriminate E|]. eapply sn_fun; [left; reflexivity|auto].
  - destruct H1 as [E|[E|Hin]]; [discriminate E..|]. apply in_app_iff in Hin as [Hin|[E|[]]]; [|discriminate E].
    destruct (H0 _ _ Hin) as (n & Hn & S). eapply sn_fun; eauto.
  - destruct H1 as [E|Hin]; [discriminate E|]. constructor. auto.
  - apply in_app_iff in H4 as [Hin|[E|Hin]]; [apply sn_left; auto|discriminate E|apply sn_right; auto].
  - auto.
  - destruct H.
  - auto.
  - exists n. split; [left; reflexivity|auto].
  - apply in_app_iff in H3 as [Hin|[E|Hin]]; [|discriminate E|].
    + exists n. split; [left; reflexivity|auto].
    + destruct (H2 _ _ Hin) as (m & Hm & S). exists m. split; [right; exact Hm|exact S].
Qed.
(** an expression with a value has a value for each of its variables *)
Lemma meaning_leaves L P :
  (forall n r, meaning L P n r -> forall v, r = Value v -> forall x p, subnode (NVar x p) n -> exists q, L x p (Value q)) /\
  (forall ns qs, meanings L P ns qs -> forall n x p, In n ns -> subnode (NVar x p) n -> exists q, L x p (Value q)) /\
  (forall ns r, first_stop L P ns r -> stops r).
Proof.
  apply meaning_mutind; intros; subst; try discriminate.
  - inversion H1.
  - inversion H1; subst. eauto.
  - inversion H2; subst; eauto.
  - inversion H3; subst; eauto.
  - contradiction.
  - inversion H5; subst; eauto.
  - contradiction.
  - contradiction.
  - inversion H3; subst; eauto.
  - contradiction.
  - destruct H.
  - destruct H3 as [<-|H3]; eauto.
  - assumption.
  - assumption.
Qed.
Lemma value_leaves L P ts n v x p : derives 5 ts n -> meaning L P n (Value v) -> In (tk (TVariable x) p) ts -> exists q, L x p (Value q).
Proof. intros D M Hin. eapply (proj1 (meaning_leaves L P)); [exact M|reflexivity|]. eapply derives_leaves; eauto. Qed.

(** ** Recording *)
Lemma recorded_session pr ord x input a h s se' r line : history_of_session h -> shown h = Ok line ->
  calculate pr ord x input (mkSession a (Some h) s) = (se', r) ->
  exists h', s_inputs se' = Some h' /\ history_of_session h' /\ recorded h' = line :: recorded h /\ ih_index h' = 0 /\ shown h' = Ok [].
Proof.
  intros Hh Hs C.
  assert (K : forall h' db' o, input_finished h (e_db s) = (h', db', o) -> history_of_session h' /\ recorded h' = line :: recorded h /\ ih_index h' = 0 /\ shown h' = Ok []).
  { intros h' db' o F. split; [rewrite (submit_step _ _ _ _ _ F); apply history_step; [exact Hh|intros; exact I]|].
    unfold input_finished in F. fold (shown h) in F. rewrite Hs in F.
    assert (h' = mkIH (ih_internal h ++ [line]) (ih_db h) [Some []] 0 (ih_exhausted h)) as ->.
    { destruct (e_db s) as [sd|]; [destruct (add_to_input_history line sd) as [? [?|?|?]]|]; apply pair_equal_spec in F as [F _]; apply pair_equal_spec in F as [<- _]; reflexivity. }
    split; [|split; reflexivity]. unfold recorded. cbn [ih_internal ih_db]. rewrite rev_app_distr. reflexivity. }
  destruct (calculate_cases _ _ _ _ _ _ _ C) as [(_ & _ & h0 & h' & db' & o & Eh & Eh' & F & _)|(id & _ & _ & X)]; cbn [s_inputs s_env] in *.
  - injection Eh as <-. exists h'. split; [exact Eh'|]. eapply K; eauto.
  - destruct X as (h' & db' & Eh' & F). exists h'. split; [exact Eh'|]. eapply K; eauto.
Qed.

(** recording on disk: the line joins the queue, or (external failure) nothing happens *)
Lemma add_cases sd sd' o line : program_file (sd_db sd) -> add_to_input_history line sd = (sd', o) ->
  (o = Err SqliteError /\ sd_db sd' = sd_db sd /\ hd_error (sd_faults sd) = Some true) \/
  (exists cap id, o = Ok id /\ capacity (sd_db sd) cap /\ capacity (sd_db sd') cap /\
     inputs_of (sd_db sd') = newest cap (inputs_of (sd_db sd) ++ [(id, line)]) /\
     forall y q k, saved (sd_db sd') y q k <-> saved (sd_db sd) y q k /\ In k (ids_of (sd_db sd'))).
Proof.
  intros H E. destruct H as (w & i & Hr & Ho & Hw).
  assert (F : forall d a d', d = w_file w -> tx_add line d = Ok (a, d') ->
     exists cap, capacity d cap /\ capacity d' cap /\ inputs_of d' = newest cap (inputs_of d ++ [(a, line)]) /\
       forall y q k, saved d' y q k <-> saved d y q k /\ In k (ids_of d')).
  { intros d a d' -> T. unfold is_open in Ho. destruct (w_pos w i) as [pos|] eqn:P; [|destruct (Ho eq_refl)].
    assert (S : step i false (AddInput line) w = (mkWorld d' (set_pos (w_pos w) i pos), RId a)).
    { rewrite (step_call i (AddInput line) w pos P); try discriminate. cbv zeta. cbn [tx_of]. rewrite (tx_bind_ok _ _ _ _ _ T). reflexivity. }
    assert (Ho' : is_open w i) by (unfold is_open; rewrite P; discriminate).
    destruct (add_fifo w i line _ _ Hr Ho' S) as (cap & id & A & B & C & D). cbn [w_file] in *. exists cap.
    assert (id = a) by congruence. subst id. split; [exact A|]. split; [exact B|]. split; [exact D|].
    intros y q k. pose proof (eviction_only w i false (AddInput line) _ _ Hr S) as V. cbn [w_file] in V. apply V; discriminate. }
  unfold add_to_input_history, sd_call in E. destruct (sd_faults sd) as [|[|] fs] eqn:Ef.
  - destruct (reachable_open w i Hr Ho) as (st & R). rewrite Hw in R. destruct (add_spec (sd_db sd) st line R) as (d' & T & _). rewrite T in E.
    apply pair_equal_spec in E as [<- <-]. cbn [sd_db]. right. destruct (F _ _ _ (eq_sym Hw) T) as (cap & A & B & C & D). exists cap, (next_id (st_inputs st)). auto.
  - apply pair_equal_spec in E as [<- <-]. left. auto.
  - destruct (reachable_open w i Hr Ho) as (st & R). rewrite Hw in R. destruct (add_spec (sd_db sd) st line R) as (d' & T & _). rewrite T in E.
    apply pair_equal_spec in E as [<- <-]. cbn [sd_db]. right. destruct (F _ _ _ (eq_sym Hw) T) as (cap & A & B & C & D). exists cap, (next_id (st_inputs st)). auto.
Qed.
Lemma hist_kept_inputs sd sd' : hist_kept (Some sd) (Some sd') -> inputs_of (sd_db sd') = inputs_of (sd_db sd) /\ forall n, capacity (sd_db sd') n <-> capacity (sd_db sd) n.
Proof. intros (A & B & _). unfold inputs_of, capacity. rewrite A, B. split; [reflexivity|intros; tauto]. Qed.

(** the line is on disk before it is interpreted, and interpreting it changes the saved history only for /histcap *)
Lemma recorded_disk pr ord input a h m sd se' r line : valid_settings a -> env_ok (mkEnv m (Some sd)) -> iterates ord ->
  program_file (sd_db sd) -> shown h = Ok line ->
  calculate pr ord the_executor input (mkSession a (Some h) (mkEnv m (Some sd))) = (se', r) ->
  (r = Err (RuntimeError SqliteError) /\ hd_error (sd_faults sd) = Some true /\ s_args se' = a /\
     exists sd', s_env se' = mkEnv m (Some sd') /\ sd_db sd' = sd_db sd) \/
  (exists cap id sd1, capacity (sd_db sd) cap /\
     after_recording (mkSession a (Some h) (mkEnv m (Some sd))) = mkEnv m (Some sd1) /\
     inputs_of (sd_db sd1) = newest cap (inputs_of (sd_db sd) ++ [(id, line)]) /\
     (forall y q k, saved (sd_db sd1) y q k <-> saved (sd_db sd) y q k /\ In k (ids_of (sd_db sd1))) /\
     ((forall arguments, ~ is_command (a_radix a) input (lit "histcap") arguments) ->
        exists sd', e_db (s_env se') = Some sd' /\ inputs_of (sd_db sd') = inputs_of (sd_db sd1) /\ capacity (sd_db sd') cap)).
Proof.
  intros Ha Hs Ho Hf Hl C. set (se := mkSession a (Some h) (mkEnv m (Some sd))) in *.
  destruct (recording_ok se Hs) as (Rok & Rv & Rn & _).
  destruct (add_to_input_history line sd) as [sd1 o] eqn:Ea. pose proof (add_cases _ _ _ _ Hf Ea) as AC.
  assert (AR : after_recording se = mkEnv m (Some sd1)).
  { unfold after_recording, se, input_finished. cbn [s_inputs s_env e_db e_vars]. fold (shown h). rewrite Hl, Ea. destruct o; reflexivity. }
  destruct (calculate_cases _ _ _ _ _ _ _ C) as [(A & B & h0 & h' & db' & o' & Eh & _ & F & D)|(id & B & Hid & X)].
  - unfold se in Eh, F. cbn [s_inputs s_env e_db] in Eh, F. injection Eh as <-. unfold input_finished in F. fold (shown h) in F. rewrite Hl, Ea in F.
    destruct AC as [(-> & Ed & Ef)|(cap & id & -> & _)].
    + apply pair_equal_spec in F as [_ <-]. left. destruct D as [(e & [= <-] & ->)|(p & [=] & _)]. split; [reflexivity|]. split; [exact Ef|]. split; [exact A|].
      exists sd1. rewrite B. split; [exact AR|exact Ed].
    + apply pair_equal_spec in F as [_ <-]. destruct D as [(e & [=] & _)|(p & [=] & _)].
  - right. unfold se in X. cbn [s_inputs s_env e_db] in X. destruct X as (h' & db' & _ & F). unfold input_finished in F. fold (shown h) in F. rewrite Hl, Ea in F.
    destruct AC as [(-> & _)|(cap & id' & -> & A1 & A2 & A3 & A4)]; [apply pair_equal_spec in F as [_ F]; discriminate F|].
    exists cap, id', sd1. split; [exact A1|]. split; [exact AR|]. split; [exact A3|]. split; [exact A4|]. intros Nh.
    assert (HK : hist_kept (Some sd1) (e_db (s_env se'))).
    { rewrite AR in B, Rok. destruct (tokenize input (a_radix a)) as [[ts|name arguments]|e|p] eqn:T.
      - destruct (body_expression _ _ _ _ _ _ _ _ _ _ _ Ha Rok ltac:(discriminate) T B) as (_ & _ & K & _). exact K.
      - destruct (body_command _ _ _ _ _ _ _ _ _ _ _ _ Ha Rok Ho T B) as (_ & _ & _ & _ & _ & _ & _ & _ & K & _). apply K.
        intros c Rc ->. apply resolves_plain in Rc; [|reflexivity]. apply (Nh (pd_value arguments)). exists name, arguments. auto.
      - destruct (body_unreadable _ _ _ _ _ _ _ _ _ _ ltac:(cbn [se s_args]; rewrite T; discriminate) B) as (_ & -> & _). apply hist_kept_refl.
      - destruct (body_unreadable _ _ _ _ _ _ _ _ _ _ ltac:(cbn [se s_args]; rewrite T; discriminate) B) as (_ & -> & _). apply hist_kept_refl. }
    destruct (e_db (s_env se')) as [sd'|]; [|destruct HK]. exists sd'. split; [reflexivity|]. destruct (hist_kept_inputs _ _ HK) as (K1 & K2). split; [exact K1|apply K2, A2].
Qed.

(** ** One-shot mode *)
Definition nobody : env := mkEnv None None.
Lemma touch_nobody names id : touch_all names id nobody = (nobody, Ok tt).
Proof. reflexivity. Qed.
Lemma nobody_only s : env_ok s -> forall s', same_variables s s' -> s = nobody -> s' = nobody.
Proof.
  intros _ s' (A & B & _) ->. destruct s' as [m d]. unfold nobody in *. cbn in *. rewrite (proj1 A eq_refl), (proj1 B eq_refl). reflexivity.
Qed.
Lemma execute_order pr ord ord' x name arguments a : execute_command pr ord x name arguments a nobody = execute_command pr ord' x name arguments a nobody.
Proof.
  unfold execute_command. destruct (assoc _ _) as [c|]; [|reflexivity]. destruct c; try reflexivity.
Qed.
Lemma execute_nobody pr ord x name arguments a a' s' r : execute_command pr ord x name arguments a nobody = (a', s', r) -> s' = nobody.
Proof.
  unfold execute_command. destruct (assoc _ _) as [c|]; [|intros E; apply pair_equal_spec in E as [E _]; apply pair_equal_spec in E as [_ <-]; reflexivity].
  destruct (keeps_state c) eqn:K; [intros E; destruct (setting_keeps _ _ _ _ _ _ _ _ _ _ K E) as (-> & _); reflexivity|].
  destruct c; try discriminate K; cbn [run_command].
  - unfold exec_reloadvar. destruct (tokenize_variable_list _); intros E; apply pair_equal_spec in E as [E _]; apply pair_equal_spec in E as [_ <-]; reflexivity.
  - unfold exec_purgevar. destruct (tokenize_variable_list _); intros E; apply pair_equal_spec in E as [E _]; apply pair_equal_spec in E as [_ <-]; reflexivity.
  - unfold exec_histcap. destruct (tokenize_int_list _ _ _) as [[|i [|j l]]|e|p]; cbn [nobody e_db]; try destruct (validate_max_history_size _);
      intros E; apply pair_equal_spec in E as [E _]; apply pair_equal_spec in E as [_ <-]; reflexivity.
Qed.
Lemma body_order pr ord ord' x input a : calculate_body pr ord x input None a nobody = calculate_body pr ord' x input None a nobody.
Proof.
  unfold calculate_body. destruct (tokenize input (a_radix a)) as [[ts|name arguments]|e|p]; reflexivity.
Qed.
Lemma body_nobody pr ord x input a a' s' r : calculate_body pr ord x input None a nobody = (a', s', r) -> valid_settings a -> s' = nobody.
Proof.
  intros B Ha. destruct (tokenize input (a_radix a)) as [[ts|name arguments]|e|p] eqn:T.
  - assert (Hn : env_ok nobody) by (split; discriminate).
    destruct (body_expression _ _ _ _ _ _ _ _ _ _ _ Ha Hn ltac:(reflexivity) T B) as (_ & _ & _ & _ & [(S & _)|(y & n & v & _ & _ & _ & N & _)]).
    + eapply nobody_only; eauto.
    + destruct (N eq_refl).
  - unfold calculate_body in B. rewrite T in B. destruct (execute_command pr ord x name arguments a nobody) as [[a1 s1] [[m t]|e|p]] eqn:E; pose proof (execute_nobody _ _ _ _ _ _ _ _ _ E) as ->.
    + rewrite touch_nobody in B. apply pair_equal_spec in B as [B _]. apply pair_equal_spec in B as [_ <-]. reflexivity.
    + apply pair_equal_spec in B as [B _]. apply pair_equal_spec in B as [_ <-]. reflexivity.
    + apply pair_equal_spec in B as [B _]. apply pair_equal_spec in B as [_ <-]. reflexivity.
  - destruct (body_unreadable _ _ _ _ _ _ _ _ _ _ ltac:(rewrite T; discriminate) B) as (_ & -> & _). reflexivity.
  - destruct (body_unreadable _ _ _ _ _ _ _ _ _ _ ltac:(rewrite T; discriminate) B) as (_ & -> & _). reflexivity.
Qed.
