(** ProofsKept.v -- what is true of every stored line stays true of every stored line. *)
From Verif Require Import Base Position Num TokenTypes Errors Token SavedData Variables InputHistory
  SyntaxTree Commands Calculate Sessions SpecGrammar SpecEval SpecHistory SpecEditor SpecCalc SpecMain ProofsNum ProofsEval ProofsEval2 ProofsEval3 ProofsParse
  ProofsDb ProofsDb2 ProofsDb3 ProofsDb4 ProofsCalc ProofsCalc2 ProofsCalc3 ProofsCalc4 ProofsCalc5 ProofsCalc6 ProofsCalc7 ProofsEditor3.
From Coq Require Import String Permutation Lia.
Local Open Scope nat_scope.
Local Open Scope list_scope.

Lemma call_texts c d r d' : program_file d -> (forall x q id, c = SetVariable x q id -> canon q) ->
  c <> Open -> c <> PrevInput -> tx_of c d = Ok (r, d') -> forall t, In t (texts_of d') -> In t (texts_of d) \/ c = AddInput t.
Proof.
  intros (w & i & H & Ho & <-) Hq Hc Hp E t. assert (Ho' := Ho). unfold is_open in Ho. destruct (w_pos w i) as [pos|] eqn:P; [clear Ho|destruct (Ho eq_refl)].
  pose proof (step_call i c w pos P Hc Hp) as S. rewrite E in S. cbv zeta in S. cbn [tx_reply fst snd] in S.
  assert (Cut : forall (n : Z) (l : list (Z * str)) e, In e (newest n l) -> In e l) by (intros n l e; unfold newest; apply ProofsEditor3.in_skipn').
  destruct (reachable_open w i H Ho') as [st R].
  destruct (step_cases _ _ _ _ _ _ _ R Ho' S Hq) as [[E1 _]|(_ & _ & _ & _ & R')].
  - cbn [w_file] in E1. rewrite E1. auto.
  - cbn [w_file] in R'. unfold texts_of. rewrite (rep_inputs _ _ R), (rep_inputs _ _ R').
    destruct c; cbn [spec_call].
    + auto.
    + cbn [fst shrink st_inputs]. intros T. apply in_map_iff in T as (e & <- & T). apply Cut, in_app_iff in T as [T|[<-|[]]]; [left; apply in_map; exact T|right; reflexivity].
    + auto.
    + destruct (has_input _ _); auto.
    + destruct (st_vars st _) as [[? ?]|]; [destruct (has_input _ _)|]; auto.
    + auto.
    + auto.
    + auto.
    + destruct (Z.ltb _ _); [auto|]. cbn [fst shrink st_inputs]. intros T. apply in_map_iff in T as (e & <- & T). apply Cut in T. left. apply in_map. exact T.
Qed.

(** Anything the calls keep, a line keeps. *)
Section Kept.
Variable kept_file : database -> Prop.
Variable addable : str -> Prop.
Hypothesis kept_call : forall c d r d', kept_file d -> (forall x q id, c = SetVariable x q id -> canon q) ->
  (forall t, c = AddInput t -> addable t) -> c <> Open -> c <> PrevInput -> tx_of c d = Ok (r, d') -> kept_file d'.

Definition k_real (o : option saved_data) : Prop := forall sd, o = Some sd -> kept_file (sd_db sd).
Definition k_keeps_file {A} (m : tx A) : Prop := forall d a d', kept_file d -> m d = Ok (a, d') -> kept_file d'.

Lemma k_keeps_of {A} (m : tx A) (f : A -> reply) c : tx_of c = tx_bind m (fun a => tx_ret (f a)) ->
  (forall x q id, c = SetVariable x q id -> canon q) -> (forall t, c = AddInput t -> addable t) -> c <> Open -> c <> PrevInput -> k_keeps_file m.
Proof.
  intros Hc Hq Ha Ho Hp d a d' H E. eapply (kept_call c d (f a) d' H Hq Ha Ho Hp). rewrite Hc. unfold tx_bind. rewrite E. reflexivity.
Qed.
Lemma k_keeps_add t : addable t -> k_keeps_file (tx_add t).
Proof. intros Ha. apply (k_keeps_of _ RId (AddInput t)); try discriminate; [reflexivity|]. intros t' E. injection E as <-. exact Ha. Qed.
Lemma k_keeps_set x q id : canon q -> k_keeps_file (tx_set_variable x q id).
Proof. intros C. apply (k_keeps_of _ (fun _ => RDone) (SetVariable x q id)); try discriminate; [reflexivity|]. intros ? ? ? E. injection E. intros. subst. exact C. Qed.
Lemma k_keeps_touch x id : k_keeps_file (tx_touch_variable x id).
Proof. apply (k_keeps_of _ (fun _ => RDone) (TouchVariable x id)); try discriminate. reflexivity. Qed.
Lemma k_keeps_get x : k_keeps_file (tx_get_variable x).
Proof. apply (k_keeps_of _ RValue (GetVariable x)); try discriminate. reflexivity. Qed.
Lemma k_keeps_clear x : k_keeps_file (tx_clear_variable x).
Proof. apply (k_keeps_of _ (fun _ => RDone) (ClearVariable x)); try discriminate. reflexivity. Qed.
Lemma k_keeps_get_max : k_keeps_file tx_get_max.
Proof. apply (k_keeps_of _ RMax GetMax); try discriminate. reflexivity. Qed.
Lemma k_keeps_set_max n : k_keeps_file (tx_set_max n).
Proof. apply (k_keeps_of _ (fun _ => RDone) (SetMax n)); try discriminate. reflexivity. Qed.
Lemma k_call_real {A} (m : tx A) sd sd' o : k_keeps_file m -> kept_file (sd_db sd) -> sd_call m sd = (sd', o) -> kept_file (sd_db sd').
Proof.
  intros K H E. destruct (sd_call_cases _ _ _ _ E) as (_ & _ & [(a & _ & M)|[(-> & _)|(-> & _)]]); auto. eapply K; eauto.
Qed.
Lemma k_real_some sd : k_real (Some sd) <-> kept_file (sd_db sd).
Proof. split; [intros H; apply H; reflexivity|intros H sd' E; injection E as <-; exact H]. Qed.

Lemma k_recording_real se : (forall h line, s_inputs se = Some h -> @current_line runtime_error h = Ok line -> addable line) -> k_real (e_db (s_env se)) -> k_real (e_db (after_recording se)).
Proof.
  intros Ha H. unfold after_recording. destruct (s_inputs se) as [h|] eqn:Eh; [|exact H]. cbn [e_db].
  unfold input_finished. destruct (current_line h) as [line|e|p] eqn:El; cbn [fst snd]; try exact H.
  destruct (e_db (s_env se)) as [sd|]; [|intros sd E; discriminate E].
  destruct (add_to_input_history line sd) as [sd' o] eqn:Ea. pose proof (k_call_real _ _ _ _ (k_keeps_add line (Ha h line eq_refl El)) (proj1 (k_real_some sd) H) Ea).
  destruct o; cbn [fst snd]; apply k_real_some; assumption.
Qed.
Lemma k_touch_loop_real names id : forall m odb m' odb' r, k_real odb -> touch_loop names id m odb = (m', odb', r) -> k_real odb'.
Proof.
  induction names as [|y names IH]; intros m odb m' odb' r H; cbn [touch_loop].
  - intros E. apply pair_equal_spec in E as [E _]. apply pair_equal_spec in E as [_ <-]. exact H.
  - destruct (vs_touch m y id odb) as [[m1 odb1] r1] eqn:T.
    assert (H1 : k_real odb1).
    { unfold vs_touch, db_result in T. destruct odb as [sd|], id as [i|]; try (apply pair_equal_spec in T as [T _]; apply pair_equal_spec in T as [_ <-]; exact H).
      destruct (touch_variable y i sd) as [sd' o] eqn:Et. cbn [fst snd] in T. apply pair_equal_spec in T as [T _]; apply pair_equal_spec in T as [_ <-].
      apply k_real_some. eapply k_call_real; [apply k_keeps_touch|apply k_real_some; exact H|exact Et]. }
    destruct r1 as [u|e|p]; [apply IH; exact H1|intros E; apply pair_equal_spec in E as [E _]; apply pair_equal_spec in E as [_ <-]; exact H1..].
Qed.
Lemma k_touch_all_real names id s s' r : k_real (e_db s) -> touch_all names id s = (s', r) -> k_real (e_db s').
Proof.
  intros H. unfold touch_all. destruct (e_vars s) as [m|]; [|intros E; apply pair_equal_spec in E as [<- _]; exact H].
  destruct (touch_loop names id m (e_db s)) as [[m' odb'] r'] eqn:T. intros E. apply pair_equal_spec in E as [<- _]. eapply k_touch_loop_real; eauto.
Qed.
Lemma k_purge_loop_real names : forall m odb m' odb' r, k_real odb -> purge_loop names m odb = (m', odb', r) -> k_real odb'.
Proof.
  induction names as [|y names IH]; intros m odb m' odb' r H; cbn [purge_loop].
  - intros E. apply pair_equal_spec in E as [E _]. apply pair_equal_spec in E as [_ <-]. exact H.
  - destruct (vs_purge m y odb) as [[m1 odb1] r1] eqn:T.
    assert (H1 : k_real odb1).
    { unfold vs_purge in T. destruct odb as [sd|]; [|apply pair_equal_spec in T as [T _]; apply pair_equal_spec in T as [_ <-]; exact H].
      destruct (clear_variable y sd) as [sd' o] eqn:Et. apply pair_equal_spec in T as [T _]; apply pair_equal_spec in T as [_ <-].
      apply k_real_some. eapply k_call_real; [apply k_keeps_clear|apply k_real_some; exact H|exact Et]. }
    destruct r1 as [u|e|p]; [apply IH; exact H1|intros E; apply pair_equal_spec in E as [E _]; apply pair_equal_spec in E as [_ <-]; exact H1..].
Qed.
Lemma k_reload_loop_real names : forall out touched m sd m' sd' r, kept_file (sd_db sd) -> reload_loop names out touched m sd = (m', sd', r) -> kept_file (sd_db sd').
Proof.
  induction names as [|y names IH]; intros out touched m sd m' sd' r H; cbn [reload_loop].
  - intros E. apply pair_equal_spec in E as [E _]. apply pair_equal_spec in E as [_ <-]. exact H.
  - cbv zeta. unfold vs_reload. destruct (get_variable y sd) as [sd1 o] eqn:G. pose proof (k_call_real _ _ _ _ (k_keeps_get y) H G) as H1.
    destruct o as [[v|]|e|p]; try (apply IH; exact H1); intros E; apply pair_equal_spec in E as [E _]; apply pair_equal_spec in E as [_ <-]; exact H1.
Qed.
Lemma k_run_command_real pr ord x c arguments a s a' s' r : k_real (e_db s) -> run_command pr ord x c arguments a s = (a', s', r) -> k_real (e_db s').
Proof.
  intros H E. destruct (keeps_state c) eqn:K; [destruct (setting_keeps _ _ _ _ _ _ _ _ _ _ K E) as (-> & _); exact H|].
  destruct c; try discriminate K; cbn [run_command] in E.
  - unfold exec_reloadvar in E. destruct (tokenize_variable_list _) as [l|e|p]; [|apply pair_equal_spec in E as [E _]; apply pair_equal_spec in E as [_ <-]; exact H..].
    destruct (e_db s) as [sd|] eqn:Es; [|apply pair_equal_spec in E as [E _]; apply pair_equal_spec in E as [_ <-]; rewrite Es; exact H].
    destruct (e_vars s) as [m|]; [|apply pair_equal_spec in E as [E _]; apply pair_equal_spec in E as [_ <-]; rewrite Es; exact H].
    destruct (reload_loop _ _ _ _ _) as [[m' sd'] r'] eqn:R. apply pair_equal_spec in E as [E _]; apply pair_equal_spec in E as [_ <-].
    apply k_real_some. eapply k_reload_loop_real; [apply k_real_some; exact H|exact R].
  - unfold exec_purgevar in E. destruct (tokenize_variable_list _) as [l|e|p]; [|apply pair_equal_spec in E as [E _]; apply pair_equal_spec in E as [_ <-]; exact H..].
    destruct (e_vars s) as [m|]; [|apply pair_equal_spec in E as [E _]; apply pair_equal_spec in E as [_ <-]; exact H].
    destruct (purge_loop _ _ _) as [[m' sd'] r'] eqn:R. apply pair_equal_spec in E as [E _]; apply pair_equal_spec in E as [_ <-].
    eapply k_purge_loop_real; eauto.
  - unfold exec_histcap in E.
    destruct (tokenize_int_list _ _ _) as [[|i [|j l]]|e|p]; try (apply pair_equal_spec in E as [E _]; apply pair_equal_spec in E as [_ <-]; exact H).
    + destruct (e_db s) as [sd|] eqn:Es; [|apply pair_equal_spec in E as [E _]; apply pair_equal_spec in E as [_ <-]; rewrite Es; exact H].
      destruct (get_max_history_size sd) as [sd' o] eqn:G. apply pair_equal_spec in E as [E _]; apply pair_equal_spec in E as [_ <-].
      apply k_real_some. eapply k_call_real; [apply k_keeps_get_max|apply k_real_some; exact H|exact G].
    + destruct (validate_max_history_size _); [apply pair_equal_spec in E as [E _]; apply pair_equal_spec in E as [_ <-]; exact H|].
      destruct (e_db s) as [sd|] eqn:Es; [|apply pair_equal_spec in E as [E _]; apply pair_equal_spec in E as [_ <-]; rewrite Es; exact H].
      destruct (set_max_history_size _ sd) as [sd' o] eqn:G. apply pair_equal_spec in E as [E _]; apply pair_equal_spec in E as [_ <-].
      apply k_real_some. eapply k_call_real; [apply k_keeps_set_max|apply k_real_some; exact H|exact G].
Qed.
Lemma k_same_values_real s s' : same_values s s' -> k_real (e_db s) -> k_real (e_db s').
Proof.
  intros (_ & B & _) H. destruct (e_db s) as [sd|], (e_db s') as [sd'|]; try contradiction; [|intros ? E; discriminate E].
  destruct B as (B & _). apply k_real_some. rewrite <- B. apply k_real_some. exact H.
Qed.
Lemma k_calculate_body_real pr ord x input id a s a' s' r : valid_settings a -> env_ok s -> k_real (e_db s) ->
  calculate_body pr ord x input id a s = (a', s', r) -> k_real (e_db s').
Proof.
  intros Ha Hs H. unfold calculate_body. destruct (tokenize input (a_radix a)) as [[ts|name arguments]|e|p] eqn:T;
    [| |intros E; apply pair_equal_spec in E as [E _]; apply pair_equal_spec in E as [_ <-]; exact H..].
  - destruct (touch_all (ord (token_variables ts)) id s) as [s1 r1] eqn:Et. destruct (touch_all_settled _ _ _ _ _ Et) as (St & _).
    pose proof (settled_ok _ _ St Hs) as Hs1. pose proof (k_touch_all_real _ _ _ _ _ H Et) as H1.
    destruct r1 as [u|e|p]; [|intros E; apply pair_equal_spec in E as [E _]; apply pair_equal_spec in E as [_ <-]; exact H1..].
    destruct ts as [|t0 ts']; [intros E; apply pair_equal_spec in E as [E _]; apply pair_equal_spec in E as [_ <-]; exact H1|].
    destruct (syntax_tree_new (t0 :: ts')) as [t|e|p] eqn:P; [|intros E; apply pair_equal_spec in E as [E _]; apply pair_equal_spec in E as [_ <-]; exact H1..].
    destruct (tree_execute pr a t id s1) as [s2 r2] eqn:Ex. intros E; apply pair_equal_spec in E as [E _]; apply pair_equal_spec in E as [_ <-].
    pose proof (typed_literals input (a_radix a) _ t (proj1 Ha) T P) as Lit.
    unfold tree_execute in Ex. destruct (exec pr a (st_root t) s1) as [s3 r3] eqn:Ee.
    destruct (exec_sound pr a (power_with pr a) (exec_power_sound pr a (valid_settings_ok _ Ha)) s1 Hs1 _ Lit s1 (grows_refl s1) s3 r3 Ee) as (G & _ & C).
    pose proof (k_same_values_real _ _ (grows_same _ _ Hs1 G) H1) as H3.
    destruct r3 as [v|e|p]; cbn [then_do] in Ex; [|apply pair_equal_spec in Ex as [<- _]; exact H3..].
    destruct (st_var t) as [y|]; [|apply pair_equal_spec in Ex as [<- _]; exact H3].
    destruct (e_vars s3) as [m|]; [|apply pair_equal_spec in Ex as [<- _]; exact H3].
    destruct (vs_update m (pd_value y) v id (e_db s3)) as [[m' odb'] r4] eqn:U. apply pair_equal_spec in Ex as [<- _]. cbn [e_db].
    unfold vs_update, db_result in U. destruct (e_db s3) as [sd|], id as [i|]; try (apply pair_equal_spec in U as [U _]; apply pair_equal_spec in U as [_ <-]; exact H3).
    destruct (set_variable (pd_value y) v i sd) as [sd' o] eqn:Es. cbn [fst snd] in U. apply pair_equal_spec in U as [U _]; apply pair_equal_spec in U as [_ <-].
    apply k_real_some. eapply k_call_real; [apply k_keeps_set, C; reflexivity|apply k_real_some; exact H3|exact Es].
  - unfold execute_command. destruct (assoc _ _) as [c|]; [|intros E; apply pair_equal_spec in E as [E _]; apply pair_equal_spec in E as [_ <-]; exact H].
    destruct (run_command pr ord x c arguments a s) as [[a1 s1] [[m t]|e|p]] eqn:R; pose proof (k_run_command_real _ _ _ _ _ _ _ _ _ _ H R) as H1.
    + destruct (touch_all t id s1) as [s2 r2] eqn:Et. intros E; apply pair_equal_spec in E as [E _]; apply pair_equal_spec in E as [_ <-]. eapply k_touch_all_real; eauto.
    + intros E; apply pair_equal_spec in E as [E _]; apply pair_equal_spec in E as [_ <-]; exact H1.
    + intros E; apply pair_equal_spec in E as [E _]; apply pair_equal_spec in E as [_ <-]; exact H1.
Qed.
Lemma calculate_kept pr ord x input se se' r : valid_settings (s_args se) -> env_ok (s_env se) ->
  (forall h line, s_inputs se = Some h -> @current_line runtime_error h = Ok line -> addable line) -> k_real (e_db (s_env se)) ->
  calculate pr ord x input se = (se', r) -> k_real (e_db (s_env se')).
Proof.
  intros Ha Hs Had H C. destruct (recording_ok se Hs) as (Rok & _). pose proof (k_recording_real se Had H) as Hr.
  destruct (calculate_cases _ _ _ _ _ _ _ C) as [(_ & B & _)|(id & B & _)]; [rewrite B; exact Hr|]. eapply k_calculate_body_real; eauto.
Qed.
End Kept.
