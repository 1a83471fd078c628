(** ProofsKept2.v -- what every database call keeps, a submitted line keeps: a claim about the file that no call can break,
    and the scrollback position. *)
From Verif Require Import Base Position Num TokenTypes Errors Token SavedData Variables InputHistory
  SyntaxTree Commands Calculate Sessions SpecGrammar SpecEval SpecHistory SpecCalc ProofsNum ProofsEval ProofsEval2 ProofsEval3 ProofsParse
  ProofsDb ProofsDb2 ProofsDb3 ProofsDb4 ProofsCalc ProofsCalc2 ProofsCalc3 ProofsCalc4 ProofsCalc5 ProofsCalc6.
From Coq Require Import String Permutation Lia.
Local Open Scope nat_scope.
Local Open Scope list_scope.

Section Kept.
Variable P : database -> Prop.
Variable pos : option Z.
Hypothesis file_call : forall c d r d', P d -> (forall x q id, c = SetVariable x q id -> canon q) ->
  c <> Open -> c <> PrevInput -> tx_of c d = Ok (r, d') -> P d'.

Definition kept (o : option saved_data) : Prop := forall sd, o = Some sd -> P (sd_db sd) /\ sd_pos sd = pos.
Definition keeps_file {A} (m : tx A) : Prop := forall d a d', P d -> m d = Ok (a, d') -> P d'.

Lemma keeps_of {A} (m : tx A) (f : A -> reply) c : tx_of c = tx_bind m (fun a => tx_ret (f a)) ->
  (forall x q id, c = SetVariable x q id -> canon q) -> c <> Open -> c <> PrevInput -> keeps_file m.
Proof.
  intros Hc Hq Ho Hp d a d' H E. eapply (file_call c d (f a) d' H Hq Ho Hp). rewrite Hc. unfold tx_bind. rewrite E. reflexivity.
Qed.
Lemma keeps_add t : keeps_file (tx_add t).
Proof. apply (keeps_of _ RId (AddInput t)); try discriminate. reflexivity. Qed.
Lemma keeps_set x q id : canon q -> keeps_file (tx_set_variable x q id).
Proof. intros C. apply (keeps_of _ (fun _ => RDone) (SetVariable x q id)); try discriminate; [reflexivity|]. intros ? ? ? E. injection E. intros. subst. exact C. Qed.
Lemma keeps_touch x id : keeps_file (tx_touch_variable x id).
Proof. apply (keeps_of _ (fun _ => RDone) (TouchVariable x id)); try discriminate. reflexivity. Qed.
Lemma keeps_get x : keeps_file (tx_get_variable x).
Proof. apply (keeps_of _ RValue (GetVariable x)); try discriminate. reflexivity. Qed.
Lemma keeps_clear x : keeps_file (tx_clear_variable x).
Proof. apply (keeps_of _ (fun _ => RDone) (ClearVariable x)); try discriminate. reflexivity. Qed.
Lemma keeps_get_max : keeps_file tx_get_max.
Proof. apply (keeps_of _ RMax GetMax); try discriminate. reflexivity. Qed.
Lemma keeps_set_max n : keeps_file (tx_set_max n).
Proof. apply (keeps_of _ (fun _ => RDone) (SetMax n)); try discriminate. reflexivity. Qed.
Lemma call_kept {A} (m : tx A) sd sd' o : keeps_file m -> (P (sd_db sd) /\ sd_pos sd = pos) -> sd_call m sd = (sd', o) -> (P (sd_db sd') /\ sd_pos sd' = pos).
Proof.
  intros K (H & Hp) E. destruct (sd_call_cases _ _ _ _ E) as (Ep & _ & C). split; [destruct C as [(a & _ & M)|[(-> & _)|(-> & _)]]; auto; eapply K; eauto|congruence].
Qed.
Lemma kept_some sd : kept (Some sd) <-> P (sd_db sd) /\ sd_pos sd = pos.
Proof. split; [intros H; apply H; reflexivity|intros H sd' E; injection E as <-; exact H]. Qed.

Lemma recording_kept se : kept (e_db (s_env se)) -> kept (e_db (after_recording se)).
Proof.
  intros H. unfold after_recording. destruct (s_inputs se) as [h|]; [|exact H]. cbn [e_db].
  unfold input_finished. destruct (current_line h) as [line|e|p]; cbn [fst snd]; try exact H.
  destruct (e_db (s_env se)) as [sd|]; [|intros sd E; discriminate E].
  destruct (add_to_input_history line sd) as [sd' o] eqn:Ea. pose proof (call_kept _ _ _ _ (keeps_add line) (proj1 (kept_some sd) H) Ea).
  destruct o; cbn [fst snd]; apply kept_some; assumption.
Qed.
Lemma touch_loop_kept names id : forall m odb m' odb' r, kept odb -> touch_loop names id m odb = (m', odb', r) -> kept odb'.
Proof.
  induction names as [|y names IH]; intros m odb m' odb' r H; cbn [touch_loop].
  - intros E. apply pair_equal_spec in E as [E _]. apply pair_equal_spec in E as [_ <-]. exact H.
  - destruct (vs_touch m y id odb) as [[m1 odb1] r1] eqn:T.
    assert (H1 : kept odb1).
    { unfold vs_touch, db_result in T. destruct odb as [sd|], id as [i|]; try (apply pair_equal_spec in T as [T _]; apply pair_equal_spec in T as [_ <-]; exact H).
      destruct (touch_variable y i sd) as [sd' o] eqn:Et. cbn [fst snd] in T. apply pair_equal_spec in T as [T _]; apply pair_equal_spec in T as [_ <-].
      apply kept_some. eapply call_kept; [apply keeps_touch|apply kept_some; exact H|exact Et]. }
    destruct r1 as [u|e|p]; [apply IH; exact H1|intros E; apply pair_equal_spec in E as [E _]; apply pair_equal_spec in E as [_ <-]; exact H1..].
Qed.
Lemma touch_all_kept names id s s' r : kept (e_db s) -> touch_all names id s = (s', r) -> kept (e_db s').
Proof.
  intros H. unfold touch_all. destruct (e_vars s) as [m|]; [|intros E; apply pair_equal_spec in E as [<- _]; exact H].
  destruct (touch_loop names id m (e_db s)) as [[m' odb'] r'] eqn:T. intros E. apply pair_equal_spec in E as [<- _]. eapply touch_loop_kept; eauto.
Qed.
Lemma purge_loop_kept names : forall m odb m' odb' r, kept odb -> purge_loop names m odb = (m', odb', r) -> kept odb'.
Proof.
  induction names as [|y names IH]; intros m odb m' odb' r H; cbn [purge_loop].
  - intros E. apply pair_equal_spec in E as [E _]. apply pair_equal_spec in E as [_ <-]. exact H.
  - destruct (vs_purge m y odb) as [[m1 odb1] r1] eqn:T.
    assert (H1 : kept odb1).
    { unfold vs_purge in T. destruct odb as [sd|]; [|apply pair_equal_spec in T as [T _]; apply pair_equal_spec in T as [_ <-]; exact H].
      destruct (clear_variable y sd) as [sd' o] eqn:Et. apply pair_equal_spec in T as [T _]; apply pair_equal_spec in T as [_ <-].
      apply kept_some. eapply call_kept; [apply keeps_clear|apply kept_some; exact H|exact Et]. }
    destruct r1 as [u|e|p]; [apply IH; exact H1|intros E; apply pair_equal_spec in E as [E _]; apply pair_equal_spec in E as [_ <-]; exact H1..].
Qed.
Lemma reload_loop_kept names : forall out touched m sd m' sd' r, (P (sd_db sd) /\ sd_pos sd = pos) -> reload_loop names out touched m sd = (m', sd', r) -> (P (sd_db sd') /\ sd_pos sd' = pos).
Proof.
  induction names as [|y names IH]; intros out touched m sd m' sd' r H; cbn [reload_loop].
  - intros E. apply pair_equal_spec in E as [E _]. apply pair_equal_spec in E as [_ <-]. exact H.
  - cbv zeta. unfold vs_reload. destruct (get_variable y sd) as [sd1 o] eqn:G. pose proof (call_kept _ _ _ _ (keeps_get y) H G) as H1.
    destruct o as [[v|]|e|p]; try (apply IH; exact H1); intros E; apply pair_equal_spec in E as [E _]; apply pair_equal_spec in E as [_ <-]; exact H1.
Qed.
Lemma run_command_kept pr ord x c arguments a s a' s' r : kept (e_db s) -> run_command pr ord x c arguments a s = (a', s', r) -> kept (e_db s').
Proof.
  intros H E. destruct (keeps_state c) eqn:K; [destruct (setting_keeps _ _ _ _ _ _ _ _ _ _ K E) as (-> & _); exact H|].
  destruct c; try discriminate K; cbn [run_command] in E.
  - unfold exec_reloadvar in E. destruct (tokenize_variable_list _) as [l|e|p]; [|apply pair_equal_spec in E as [E _]; apply pair_equal_spec in E as [_ <-]; exact H..].
    destruct (e_db s) as [sd|] eqn:Es; [|apply pair_equal_spec in E as [E _]; apply pair_equal_spec in E as [_ <-]; rewrite Es; exact H].
    destruct (e_vars s) as [m|]; [|apply pair_equal_spec in E as [E _]; apply pair_equal_spec in E as [_ <-]; rewrite Es; exact H].
    destruct (reload_loop _ _ _ _ _) as [[m' sd'] r'] eqn:R. apply pair_equal_spec in E as [E _]; apply pair_equal_spec in E as [_ <-].
    apply kept_some. eapply reload_loop_kept; [apply kept_some; exact H|exact R].
  - unfold exec_purgevar in E. destruct (tokenize_variable_list _) as [l|e|p]; [|apply pair_equal_spec in E as [E _]; apply pair_equal_spec in E as [_ <-]; exact H..].
    destruct (e_vars s) as [m|]; [|apply pair_equal_spec in E as [E _]; apply pair_equal_spec in E as [_ <-]; exact H].
    destruct (purge_loop _ _ _) as [[m' sd'] r'] eqn:R. apply pair_equal_spec in E as [E _]; apply pair_equal_spec in E as [_ <-].
    eapply purge_loop_kept; eauto.
  - unfold exec_histcap in E.
    destruct (tokenize_int_list _ _ _) as [[|i [|j l]]|e|p]; try (apply pair_equal_spec in E as [E _]; apply pair_equal_spec in E as [_ <-]; exact H).
    + destruct (e_db s) as [sd|] eqn:Es; [|apply pair_equal_spec in E as [E _]; apply pair_equal_spec in E as [_ <-]; rewrite Es; exact H].
      destruct (get_max_history_size sd) as [sd' o] eqn:G. apply pair_equal_spec in E as [E _]; apply pair_equal_spec in E as [_ <-].
      apply kept_some. eapply call_kept; [apply keeps_get_max|apply kept_some; exact H|exact G].
    + destruct (validate_max_history_size _); [apply pair_equal_spec in E as [E _]; apply pair_equal_spec in E as [_ <-]; exact H|].
      destruct (e_db s) as [sd|] eqn:Es; [|apply pair_equal_spec in E as [E _]; apply pair_equal_spec in E as [_ <-]; rewrite Es; exact H].
      destruct (set_max_history_size _ sd) as [sd' o] eqn:G. apply pair_equal_spec in E as [E _]; apply pair_equal_spec in E as [_ <-].
      apply kept_some. eapply call_kept; [apply keeps_set_max|apply kept_some; exact H|exact G].
Qed.
Lemma same_values_kept s s' : same_values s s' -> kept (e_db s) -> kept (e_db s').
Proof.
  intros (_ & B & _) H. destruct (e_db s) as [sd|], (e_db s') as [sd'|]; try contradiction; [|intros ? E; discriminate E].
  destruct B as (B & Bp & _). apply kept_some. rewrite <- B, <- Bp. apply kept_some. exact H.
Qed.
Lemma calculate_body_kept pr ord x input id a s a' s' r : valid_settings a -> env_ok s -> kept (e_db s) ->
  calculate_body pr ord x input id a s = (a', s', r) -> kept (e_db s').
Proof.
  intros Ha Hs H. unfold calculate_body. destruct (tokenize input (a_radix a)) as [[ts|name arguments]|e|p] eqn:T;
    [| |intros E; apply pair_equal_spec in E as [E _]; apply pair_equal_spec in E as [_ <-]; exact H..].
  - destruct (touch_all (ord (token_variables ts)) id s) as [s1 r1] eqn:Et. destruct (touch_all_settled _ _ _ _ _ Et) as (St & _).
    pose proof (settled_ok _ _ St Hs) as Hs1. pose proof (touch_all_kept _ _ _ _ _ H Et) as H1.
    destruct r1 as [u|e|p]; [|intros E; apply pair_equal_spec in E as [E _]; apply pair_equal_spec in E as [_ <-]; exact H1..].
    destruct ts as [|t0 ts']; [intros E; apply pair_equal_spec in E as [E _]; apply pair_equal_spec in E as [_ <-]; exact H1|].
    destruct (syntax_tree_new (t0 :: ts')) as [t|e|p] eqn:Pe; [|intros E; apply pair_equal_spec in E as [E _]; apply pair_equal_spec in E as [_ <-]; exact H1..].
    destruct (tree_execute pr a t id s1) as [s2 r2] eqn:Ex. intros E; apply pair_equal_spec in E as [E _]; apply pair_equal_spec in E as [_ <-].
    pose proof (typed_literals input (a_radix a) _ t (proj1 Ha) T Pe) as Lit.
    unfold tree_execute in Ex. destruct (exec pr a (st_root t) s1) as [s3 r3] eqn:Ee.
    destruct (exec_sound pr a (power_with pr a) (exec_power_sound pr a (valid_settings_ok _ Ha)) s1 Hs1 _ Lit s1 (grows_refl s1) s3 r3 Ee) as (G & _ & C).
    pose proof (same_values_kept _ _ (grows_same _ _ Hs1 G) H1) as H3.
    destruct r3 as [v|e|p]; cbn [then_do] in Ex; [|apply pair_equal_spec in Ex as [<- _]; exact H3..].
    destruct (st_var t) as [y|]; [|apply pair_equal_spec in Ex as [<- _]; exact H3].
    destruct (e_vars s3) as [m|]; [|apply pair_equal_spec in Ex as [<- _]; exact H3].
    destruct (vs_update m (pd_value y) v id (e_db s3)) as [[m' odb'] r4] eqn:U. apply pair_equal_spec in Ex as [<- _]. cbn [e_db].
    unfold vs_update, db_result in U. destruct (e_db s3) as [sd|], id as [i|]; try (apply pair_equal_spec in U as [U _]; apply pair_equal_spec in U as [_ <-]; exact H3).
    destruct (set_variable (pd_value y) v i sd) as [sd' o] eqn:Es. cbn [fst snd] in U. apply pair_equal_spec in U as [U _]; apply pair_equal_spec in U as [_ <-].
    apply kept_some. eapply call_kept; [apply keeps_set, C; reflexivity|apply kept_some; exact H3|exact Es].
  - unfold execute_command. destruct (assoc _ _) as [c|]; [|intros E; apply pair_equal_spec in E as [E _]; apply pair_equal_spec in E as [_ <-]; exact H].
    destruct (run_command pr ord x c arguments a s) as [[a1 s1] [[m t]|e|p]] eqn:R; pose proof (run_command_kept _ _ _ _ _ _ _ _ _ _ H R) as H1.
    + destruct (touch_all t id s1) as [s2 r2] eqn:Et. intros E; apply pair_equal_spec in E as [E _]; apply pair_equal_spec in E as [_ <-]. eapply touch_all_kept; eauto.
    + intros E; apply pair_equal_spec in E as [E _]; apply pair_equal_spec in E as [_ <-]; exact H1.
    + intros E; apply pair_equal_spec in E as [E _]; apply pair_equal_spec in E as [_ <-]; exact H1.
Qed.
Lemma calculate_kept pr ord x input se se' r : valid_settings (s_args se) -> env_ok (s_env se) -> kept (e_db (s_env se)) ->
  calculate pr ord x input se = (se', r) -> kept (e_db (s_env se')).
Proof.
  intros Ha Hs H C. destruct (recording_ok se Hs) as (Rok & _). pose proof (recording_kept se H) as Hr.
  destruct (calculate_cases _ _ _ _ _ _ _ C) as [(_ & B & _)|(id & B & _)]; [rewrite B; exact Hr|]. eapply calculate_body_kept; eauto.
Qed.
End Kept.
