(** ProofsCalm.v -- without external database failures no line meets one. *)
From Verif Require Import Base Position Num TokenTypes Errors Token Operations SavedData Variables InputHistory
  SyntaxTree Commands Calculate Sessions SpecGrammar SpecEval SpecHistory SpecCalc.
From Verif Require Import ProofsNum ProofsEval ProofsEval2 ProofsEval3 ProofsParse ProofsParse2 ProofsParse3
  ProofsDb ProofsDb2 ProofsDb3 ProofsDb4 ProofsDb5 ProofsCalc ProofsCalc2 ProofsCalc3 ProofsCalc4 ProofsCalc5 ProofsCalc6 ProofsCalc7 ProofsCalc10.
From Coq Require Import String Permutation Lia.
Local Open Scope nat_scope.
Local Open Scope list_scope.

Definition calm (sd : saved_data) : Prop := ~ In true (sd_faults sd).
Definition calm_odb (o : option saved_data) : Prop := forall sd, o = Some sd -> calm sd.
Lemma calm_call {A} (m : tx A) sd sd' o : calm sd -> sd_call m sd = (sd', o) ->
  calm sd' /\ match m (sd_db sd) with
              | Ok (a, d') => o = Ok a /\ sd_db sd' = d'
              | Err e => o = Err e /\ sd_db sd' = sd_db sd
              | Panic p => o = Panic p /\ sd_db sd' = sd_db sd
              end.
Proof.
  unfold calm, sd_call. intros C. destruct (sd_faults sd) as [|[|] fs] eqn:F.
  - destruct (m (sd_db sd)) as [[a d']|e|p]; intros E; apply pair_equal_spec in E as [<- <-]; cbn; auto.
  - destruct C. left. reflexivity.
  - assert (~ In true fs) by (intros H; apply C; right; exact H).
    destruct (m (sd_db sd)) as [[a d']|e|p]; intros E; apply pair_equal_spec in E as [<- <-]; cbn; auto.
Qed.
Lemma calm_suffix sd sd' : calm sd -> (exists c, sd_faults sd = c ++ sd_faults sd') -> calm sd'.
Proof. intros C (c & F) H. apply C. rewrite F. apply in_app_iff. right. exact H. Qed.

(** The database accepts changes made under the input [id]: it is there, or there is no database at all. *)
Definition accepts (id : option Z) (o : option saved_data) : Prop :=
  match o, id with
  | None, None => True
  | Some sd, Some i => calm sd /\ has_id (d_hist (sd_db sd)) i = true
  | _, _ => False
  end.
Lemma accepts_calm id o : accepts id o -> calm_odb o.
Proof. destruct o as [sd|], id; cbn; try contradiction; intros H sd0 E; [|discriminate E]. injection E as <-. tauto. Qed.

Lemma vs_touch_calm m x id odb m' odb' r : accepts id odb -> vs_touch m x id odb = (m', odb', r) -> r = Ok tt /\ accepts id odb'.
Proof.
  unfold vs_touch. destruct odb as [sd|], id as [i|]; cbn [accepts]; try contradiction.
  - intros (C & H). unfold db_result. destruct (touch_variable x i sd) as [sd' o] eqn:T. cbn [fst snd]. intros E.
    apply pair_equal_spec in E as [E <-]. apply pair_equal_spec in E as [_ <-]. destruct (calm_call _ _ _ _ C T) as (C' & K).
    destruct (tx_touch_variable x i (sd_db sd)) as [[[] d']|e|p] eqn:M.
    + destruct K as (-> & K). destruct (touch_rows _ _ _ _ M) as (_ & Hh & _). split; [reflexivity|]. split; [exact C'|]. rewrite K, Hh. exact H.
    + exfalso. unfold tx_touch_variable, sql_var_touch in M. rewrite H in M. destruct (existsb _ _); discriminate M.
    + exfalso. exact (touch_never_panics _ _ _ _ M).
  - intros _ E. apply pair_equal_spec in E as [E <-]. apply pair_equal_spec in E as [_ <-]. split; [reflexivity|exact I].
Qed.
Lemma touch_loop_calm names id : forall m odb m' odb' r, accepts id odb -> touch_loop names id m odb = (m', odb', r) -> r = Ok tt /\ accepts id odb'.
Proof.
  induction names as [|x names IH]; intros m odb m' odb' r H E; cbn [touch_loop] in E.
  - apply pair_equal_spec in E as [E <-]. apply pair_equal_spec in E as [_ <-]. auto.
  - destruct (vs_touch m x id odb) as [[m1 odb1] r1] eqn:T. destruct (vs_touch_calm _ _ _ _ _ _ _ H T) as (-> & H1). eapply IH; eauto.
Qed.
Lemma touch_all_calm names id s s' r : accepts id (e_db s) -> touch_all names id s = (s', r) -> r = Ok tt /\ accepts id (e_db s').
Proof.
  intros H. unfold touch_all. destruct (e_vars s) as [m|]; [|intros E; apply pair_equal_spec in E as [<- <-]; auto].
  destruct (touch_loop names id m (e_db s)) as [[m' odb'] o] eqn:T. intros E. apply pair_equal_spec in E as [<- <-].
  destruct (touch_loop_calm _ _ _ _ _ _ _ H T) as (-> & K). auto.
Qed.
Lemma vs_update_calm m x v id odb m' odb' r : accepts id odb -> vs_update m x v id odb = (m', odb', r) -> r = Ok tt /\ accepts id odb'.
Proof.
  unfold vs_update. destruct odb as [sd|], id as [i|]; cbn [accepts]; try contradiction.
  - intros (C & H). unfold db_result. destruct (set_variable x v i sd) as [sd' o] eqn:T. cbn [fst snd]. intros E.
    apply pair_equal_spec in E as [E <-]. apply pair_equal_spec in E as [_ <-]. destruct (calm_call _ _ _ _ C T) as (C' & K).
    assert (M : exists d', tx_set_variable x v i (sd_db sd) = Ok (tt, d') /\ d_hist d' = d_hist (sd_db sd)).
    { unfold tx_set_variable. change (@to_str_radix runtime_error (Qnum v) VARIABLE_STORAGE_RADIX) with (@Ok runtime_error _ (show_Z (Qnum v))).
      change (@to_str_radix runtime_error (Zpos (Qden v)) VARIABLE_STORAGE_RADIX) with (@Ok runtime_error _ (show_Z (Zpos (Qden v)))).
      cbn [bind]. unfold sql_var_insert. cbn [v_used]. rewrite H. eexists. split; reflexivity. }
    destruct M as (d' & M & Hh). rewrite M in K. destruct K as (-> & K). split; [reflexivity|]. split; [exact C'|]. rewrite K, Hh. exact H.
  - intros _ E. apply pair_equal_spec in E as [E <-]. apply pair_equal_spec in E as [_ <-]. split; [reflexivity|exact I].
Qed.
Lemma accepts_same id s s' : same_values s s' -> accepts id (e_db s) -> accepts id (e_db s').
Proof.
  intros (_ & B & _). destruct (e_db s) as [sd|], (e_db s') as [sd'|]; try contradiction; auto. destruct id as [i|]; cbn; auto.
  intros (C & H). destruct B as (B & _ & F). split; [eapply calm_suffix; eauto|]. rewrite <- B. exact H.
Qed.

(** No expression meets a database failure. *)
Lemma meaning_calm pr a s : no_faults s ->
  (forall n r, meaning (var_result s) (power_with pr a) n r -> forall e, r <> Fails (RuntimeError e)) /\
  (forall ns qs, meanings (var_result s) (power_with pr a) ns qs -> True) /\
  (forall ns r, first_stop (var_result s) (power_with pr a) ns r -> forall e, r <> Fails (RuntimeError e)).
Proof.
  intros Hd. assert (HP : forall p x y r e, power_with pr a p x y r -> r <> Fails (RuntimeError e)).
  { intros p x y r e P. unfold power_with in P. destruct (digits_kept pr a); [|subst r; discriminate].
    destruct P as [P|(q & -> & _)]; [|discriminate]. inversion P; subst; discriminate. }
  apply meaning_mutind; intros; auto; try discriminate.
  - match goal with H : var_result _ _ _ _ |- _ => inversion H; subst end; try discriminate. match goal with E : e_db s = Some ?sd |- _ => destruct (Hd sd E) end. assumption.
  - match goal with H : unary _ _ _ _ _ |- _ => inversion H; subst end; try discriminate. eapply HP. eassumption.
  - match goal with H : binary _ _ _ _ _ _ |- _ => inversion H; subst end; try discriminate. eapply HP. eassumption.
Qed.

Lemma tokens_calm pr ord x input id a s a' s' r ts : valid_settings a -> env_ok s -> accepts id (e_db s) ->
  tokenize input (a_radix a) = Ok (PTokens ts) ->
  calculate_body pr ord x input id a s = (a', s', r) ->
  (forall e, r <> Err (RuntimeError e)) /\ calm_odb (e_db s').
Proof.
  intros Ha Hs H T. unfold calculate_body. rewrite T.
  destruct (touch_all (ord (token_variables ts)) id s) as [s1 r1] eqn:Et. destruct (touch_all_settled _ _ _ _ _ Et) as (St & _).
  pose proof (settled_ok _ _ St Hs) as Hs1. destruct (touch_all_calm _ _ _ _ _ H Et) as (-> & H1).
  destruct ts as [|t0 ts']; [intros E; apply pair_equal_spec in E as [E <-]; apply pair_equal_spec in E as [_ <-]; split; [discriminate|eapply accepts_calm; eauto]|].
  remember (t0 :: ts') as ts eqn:Ets. clear Ets t0 ts'.
  destruct (syntax_tree_new ts) as [t|e|p] eqn:P; [|intros E; apply pair_equal_spec in E as [E <-]; apply pair_equal_spec in E as [_ <-]; (split; [discriminate|eapply accepts_calm; eauto])..].
  pose proof (typed_literals input (a_radix a) ts t (proj1 Ha) T P) as Lit.
  unfold tree_execute. destruct (exec pr a (st_root t) s1) as [s3 r3] eqn:Ee.
  destruct (exec_sound pr a (power_with pr a) (exec_power_sound pr a (valid_settings_ok _ Ha)) s1 Hs1 _ Lit s1 (grows_refl s1) s3 r3 Ee) as (G & M & C).
  pose proof (accepts_same id _ _ (grows_same _ _ Hs1 G) H1) as H3.
  assert (Nf : no_faults s1) by (intros sd E; apply (accepts_calm _ _ H1 sd E)).
  destruct r3 as [v|e|p]; cbn [then_do].
  - destruct (@format_result_ok failure a v Ha) as (text & F).
    destruct (st_var t) as [[y p]|].
    2:{ intros E; apply pair_equal_spec in E as [E <-]; apply pair_equal_spec in E as [_ <-]. split; [rewrite F; discriminate|eapply accepts_calm; eauto]. }
    cbn [pd_value pd_pos]. destruct (e_vars s3) as [m|].
    2:{ intros E; apply pair_equal_spec in E as [E <-]; apply pair_equal_spec in E as [_ <-]. split; [discriminate|eapply accepts_calm; eauto]. }
    destruct (vs_update m y v id (e_db s3)) as [[m' odb'] r4] eqn:U. destruct (vs_update_calm _ _ _ _ _ _ _ _ H3 U) as (-> & H4).
    intros E; apply pair_equal_spec in E as [E <-]; apply pair_equal_spec in E as [_ <-]. cbn. split; [rewrite F; discriminate|eapply accepts_calm; eauto].
  - intros E; apply pair_equal_spec in E as [E <-]; apply pair_equal_spec in E as [_ <-]. split; [|eapply accepts_calm; eauto].
    intros e' [= ->]. exact (proj1 (meaning_calm pr a s1 Nf) _ _ M e' eq_refl).
  - intros E; apply pair_equal_spec in E as [E <-]; apply pair_equal_spec in E as [_ <-]. split; [discriminate|eapply accepts_calm; eauto].
Qed.

Lemma purge_loop_calm names : forall m odb m' odb' r, calm_odb odb -> purge_loop names m odb = (m', odb', r) -> r = Ok tt /\ calm_odb odb'.
Proof.
  induction names as [|x names IH]; intros m odb m' odb' r H E; cbn [purge_loop] in E.
  - apply pair_equal_spec in E as [E <-]. apply pair_equal_spec in E as [_ <-]. auto.
  - destruct (vs_purge m x odb) as [[m1 odb1] r1] eqn:T. unfold vs_purge in T. cbv zeta in T.
    assert (K : r1 = Ok tt /\ calm_odb odb1).
    { destruct odb as [sd|].
      - destruct (clear_variable x sd) as [sd' o] eqn:Ec. apply pair_equal_spec in T as [T <-]. apply pair_equal_spec in T as [_ <-].
        destruct (calm_call _ _ _ _ (H sd eq_refl) Ec) as (C & K). cbn in K. destruct K as (-> & _). split; [reflexivity|]. intros sd0 [= <-]. exact C.
      - apply pair_equal_spec in T as [T <-]. apply pair_equal_spec in T as [_ <-]. split; [reflexivity|discriminate]. }
    destruct K as (-> & K). eapply IH; eauto.
Qed.
Lemma reload_loop_calm names : forall out touched m sd m' sd' r, calm sd -> rows_ok (sd_db sd) -> reload_loop names out touched m sd = (m', sd', r) ->
  (exists mt, r = Ok mt) /\ calm sd' /\ sd_db sd' = sd_db sd.
Proof.
  induction names as [|x names IH]; intros out touched m sd m' sd' r C Hr E; cbn [reload_loop] in E.
  - apply pair_equal_spec in E as [E <-]. apply pair_equal_spec in E as [_ <-]. eauto.
  - cbv zeta in E. unfold vs_reload in E. destruct (get_variable x sd) as [sd1 o1] eqn:G. destruct (calm_call _ _ _ _ C G) as (C1 & K).
    destruct (tx_get_variable_ok _ x Hr) as [(v & M & _)|(M & _)]; rewrite M in K; destruct K as (-> & K).
    + destruct (IH _ _ _ _ _ _ _ C1 ltac:(rewrite K; exact Hr) E) as (A & B & D). split; [exact A|]. split; [exact B|congruence].
    + destruct (IH _ _ _ _ _ _ _ C1 ltac:(rewrite K; exact Hr) E) as (A & B & D). split; [exact A|]. split; [exact B|congruence].
Qed.
Lemma lift_no_runtime {A} (r : outcome runtime_error A) : (exists a, r = Ok a) -> forall e, lift_rt r <> Err (RuntimeError e).
Proof. intros (a & ->) e. discriminate. Qed.

(** Commands. *)
Lemma command_calm pr ord x c arguments id a s a' s' r : env_ok s -> accepts id (e_db s) -> real (e_db s) ->
  run_command pr ord x c arguments a s = (a', s', r) ->
  (forall e, r <> Err (RuntimeError e)) /\ calm_odb (e_db s') /\ (forall m t, r = Ok (m, t) -> t = [] \/ accepts id (e_db s')).
Proof.
  intros Hs H R E.
  assert (Keep : s' = s -> calm_odb (e_db s') /\ (forall m t, r = Ok (m, t) -> t = [] \/ accepts id (e_db s'))) by (intros ->; split; [eapply accepts_calm; eauto|auto]).
  destruct (keeps_state c) eqn:K.
  { destruct (setting_keeps _ _ _ _ _ _ _ _ _ _ K E) as (-> & _). split; [|apply Keep; reflexivity].
    intros e ->. destruct c; try discriminate K; cbn [run_command] in E.
    - unfold exec_help in E. destruct (ptrim arguments) as [al|e'|p] eqn:P; [|destruct (ptrim_no_err _ _ P)|discriminate E].
      destruct (pd_value al); [discriminate E|]. destruct (assoc _ _); discriminate E.
    - unfold exec_bool_setting, cmd_done in E. cbv zeta in E. destruct (trim _); [|destruct (_ || _); [|destruct (_ || _)]]; discriminate E.
    - unfold exec_radix in E. destruct (parse_radix_arg pr arguments) as [[v|]|e'|p] eqn:P; try discriminate E. apply pair_equal_spec in E as [_ E]. injection E as ->. exact (int_list_radix_failure _ _ _ P).
    - unfold exec_converttoradix in E. destruct (str_eqb _ _); [discriminate E|].
      destruct (parse_radix_arg pr arguments) as [[v|]|e'|p] eqn:P; try discriminate E. apply pair_equal_spec in E as [_ E]. injection E as ->. exact (int_list_radix_failure _ _ _ P).
    - unfold exec_bool_setting, cmd_done in E. cbv zeta in E. destruct (trim _); [|destruct (_ || _); [|destruct (_ || _)]]; discriminate E.
    - unfold exec_bool_setting, cmd_done in E. cbv zeta in E. destruct (trim _); [|destruct (_ || _); [|destruct (_ || _)]]; discriminate E.
    - unfold exec_precision in E. cbv zeta in E. destruct (tokenize_int_list _ _ _) as [[|i [|j [|k l]]]|e'|p]; try discriminate E.
      + destruct (check_precision a i None) as [[p1 e1]|e'|p] eqn:P; try discriminate E. apply pair_equal_spec in E as [_ E]. injection E as ->. exact (check_precision_failure _ _ _ _ P).
      + destruct (check_precision a i (Some j)) as [[p1 e1]|e'|p] eqn:P; try discriminate E. apply pair_equal_spec in E as [_ E]. injection E as ->. exact (check_precision_failure _ _ _ _ P). }
  destruct c; try discriminate K; clear K; cbn [run_command] in E.
  - unfold exec_reloadvar in E. destruct (tokenize_variable_list _) as [l|e|p]; [|apply pair_equal_spec in E as [E <-]; apply pair_equal_spec in E as [_ E]; symmetry in E; split; [discriminate|apply Keep; exact E]..].
    destruct (e_db s) as [sd|] eqn:Es; [|apply pair_equal_spec in E as [E <-]; apply pair_equal_spec in E as [_ E]; symmetry in E; split; [discriminate|apply Keep; exact E]].
    destruct (e_vars s) as [m|] eqn:Em; [|apply pair_equal_spec in E as [E <-]; apply pair_equal_spec in E as [_ E]; symmetry in E; split; [discriminate|apply Keep; exact E]].
    destruct (reload_loop _ _ _ m sd) as [[m' sd'] o] eqn:L. apply pair_equal_spec in E as [E <-]. apply pair_equal_spec in E as [_ <-].
    destruct id as [i|]; [|destruct H]. destruct H as (C & Hi). destruct (reload_loop_calm _ _ _ _ _ _ _ _ C (proj2 Hs sd Es) L) as (A & B & D).
    split; [apply lift_no_runtime; exact A|]. cbn [e_db]. split; [intros sd0 [= <-]; exact B|]. intros mm t _. right. cbn. rewrite D. auto.
  - unfold exec_purgevar in E. destruct (tokenize_variable_list _) as [l|e|p]; [|apply pair_equal_spec in E as [E <-]; apply pair_equal_spec in E as [_ E]; symmetry in E; split; [discriminate|apply Keep; exact E]..].
    destruct (e_vars s) as [m|] eqn:Em; [|apply pair_equal_spec in E as [E <-]; apply pair_equal_spec in E as [_ E]; symmetry in E; split; [discriminate|apply Keep; exact E]].
    destruct (purge_loop _ m (e_db s)) as [[m' odb'] o] eqn:L. apply pair_equal_spec in E as [E <-]. apply pair_equal_spec in E as [_ <-].
    destruct (purge_loop_calm _ _ _ _ _ _ (accepts_calm _ _ H) L) as (-> & B). split; [discriminate|]. split; [exact B|].
    intros mm t Et. left. apply ok_inj, pair_equal_spec in Et as [_ Et]. auto.
  - unfold exec_histcap in E. destruct (tokenize_int_list _ _ _) as [[|i [|j l]]|e|p];
      try (apply pair_equal_spec in E as [E <-]; apply pair_equal_spec in E as [_ E]; symmetry in E; split; [discriminate|apply Keep; exact E]).
    + destruct (e_db s) as [sd|] eqn:Es; [|apply pair_equal_spec in E as [E <-]; apply pair_equal_spec in E as [_ E]; symmetry in E; split; [discriminate|apply Keep; exact E]].
      destruct (get_max_history_size sd) as [sd' o] eqn:G. apply pair_equal_spec in E as [E <-]. apply pair_equal_spec in E as [_ <-].
      destruct (file_store _ (R sd eq_refl)) as (st & Rp). destruct (calm_call _ _ _ _ (accepts_calm _ _ H sd eq_refl) G) as (C & K).
      unfold tx_get_max, sql_meta_select in K. rewrite (rp_cap _ _ Rp) in K. destruct K as (-> & K). split; [discriminate|].
      split; [intros sd0 [= <-]; exact C|]. intros mm t Et. left. apply ok_inj, pair_equal_spec in Et as [_ Et]. auto.
    + destruct (validate_max_history_size (pd_value i)) as [m|] eqn:V; [apply pair_equal_spec in E as [E <-]; apply pair_equal_spec in E as [_ E]; symmetry in E; split; [discriminate|apply Keep; exact E]|].
      destruct (e_db s) as [sd|] eqn:Es; [|apply pair_equal_spec in E as [E <-]; apply pair_equal_spec in E as [_ E]; symmetry in E; split; [discriminate|apply Keep; exact E]].
      destruct (set_max_history_size (pd_value i) sd) as [sd' o] eqn:G. apply pair_equal_spec in E as [E <-]. apply pair_equal_spec in E as [_ <-].
      destruct (file_store _ (R sd eq_refl)) as (st & Rp). destruct (calm_call _ _ _ _ (accepts_calm _ _ H sd eq_refl) G) as (C & K).
      assert (N1 : (1 <= pd_value i)%Z) by (unfold validate_max_history_size in V; destruct (Z.ltb_spec (pd_value i) 1); [discriminate V|lia]).
      destruct (set_max_spec _ _ _ Rp N1) as (d' & M & _). rewrite M in K. destruct K as (-> & K). split; [discriminate|].
      split; [intros sd0 [= <-]; exact C|]. intros mm t Et. left. apply ok_inj, pair_equal_spec in Et as [_ Et]. auto.
Qed.

Lemma body_calm pr ord x input id a s a' s' r : valid_settings a -> env_ok s -> accepts id (e_db s) -> real (e_db s) ->
  calculate_body pr ord x input id a s = (a', s', r) ->
  (forall e, r <> Err (RuntimeError e)) /\ calm_odb (e_db s').
Proof.
  intros Ha Hs H R B. destruct (tokenize input (a_radix a)) as [[ts|name arguments]|e|p] eqn:T.
  - eapply tokens_calm; eauto.
  - unfold calculate_body in B. rewrite T in B. unfold execute_command in B.
    destruct (assoc (resolve_alias x (pd_value name)) (x_commands x)) as [c|];
      [|apply pair_equal_spec in B as [B <-]; apply pair_equal_spec in B as [_ <-]; split; [discriminate|eapply accepts_calm; eauto]].
    destruct (run_command pr ord x c arguments a s) as [[a1 s1] r1] eqn:E. destruct (command_calm _ _ _ _ _ _ _ _ _ _ _ Hs H R E) as (N1 & C1 & T1).
    destruct r1 as [[m t]|e|p].
    + destruct (touch_all t id s1) as [s2 r2] eqn:Et. apply pair_equal_spec in B as [B <-]. apply pair_equal_spec in B as [_ <-].
      destruct (T1 m t eq_refl) as [->|H1].
      * unfold touch_all in Et. destruct (e_vars s1); cbn [touch_loop] in Et; apply pair_equal_spec in Et as [<- <-]; (split; [discriminate|exact C1]).
      * destruct (touch_all_calm _ _ _ _ _ H1 Et) as (-> & H2). split; [discriminate|eapply accepts_calm; eauto].
    + apply pair_equal_spec in B as [B <-]. apply pair_equal_spec in B as [_ <-]. split; [|exact C1]. intros e' [= ->]. exact (N1 e' eq_refl).
    + apply pair_equal_spec in B as [B <-]. apply pair_equal_spec in B as [_ <-]. split; [discriminate|exact C1].
  - unfold calculate_body in B. rewrite T in B. apply pair_equal_spec in B as [B <-]. apply pair_equal_spec in B as [_ <-]. split; [discriminate|eapply accepts_calm; eauto].
  - unfold calculate_body in B. rewrite T in B. apply pair_equal_spec in B as [B <-]. apply pair_equal_spec in B as [_ <-]. split; [discriminate|eapply accepts_calm; eauto].
Qed.

(** Recording. *)
Lemma add_calm line sd sd' o : calm sd -> program_file (sd_db sd) -> add_to_input_history line sd = (sd', o) ->
  exists i, o = Ok i /\ accepts (Some i) (Some sd').
Proof.
  intros C F E. destruct (file_store _ F) as (st & Rp). destruct (add_spec _ _ line Rp) as (d' & M & Rp').
  destruct (calm_call _ _ _ _ C E) as (C' & K). rewrite M in K. destruct K as (-> & K). eexists. split; [reflexivity|].
  cbn [accepts]. split; [exact C'|]. rewrite K, (rep_has_id _ _ _ Rp'). cbn [spec_call fst shrink st_inputs]. apply has_input_in.
  pose proof (rp_cap_pos _ _ Rp) as P. set (l := st_inputs st). set (i := next_id l).
  assert (Hn : newest (st_cap st) (l ++ [(i, line)]) <> []) by (apply newest_nonnil; [exact P|destruct l; discriminate]).
  destruct (newest_suffix (st_cap st) (l ++ [(i, line)])) as (pre & S).
  destruct (exists_last Hn) as (k & e & Hk). rewrite Hk in *. rewrite app_assoc in S. apply app_inj_tail in S as [_ <-].
  rewrite map_app. apply in_app_iff. right. left. reflexivity.
Qed.
Lemma calculate_calm pr ord x input se se' r : valid_settings (s_args se) -> env_ok (s_env se) -> real_database (s_env se) -> no_faults (s_env se) ->
  (e_db (s_env se) <> None -> s_inputs se <> None) ->
  calculate pr ord x input se = (se', r) ->
  (forall e, r <> Err (RuntimeError e)) /\ no_faults (s_env se').
Proof.
  intros Ha Hs R Nf Hi C. destruct (recording_ok se Hs) as (Rok & _). pose proof (recording_real se R) as Rr.
  unfold calculate in C. cbv zeta in C. destruct (s_inputs se) as [h|] eqn:Eh.
  - unfold after_recording in Rok, Rr. rewrite Eh in Rok, Rr. unfold input_finished in C, Rok, Rr. destruct (current_line h) as [line|e|p] eqn:L; [|destruct (current_no_err _ _ L)|].
    + destruct (e_db (s_env se)) as [sd|] eqn:Es.
      * destruct (add_to_input_history line sd) as [sd' o] eqn:Ea. destruct (add_calm _ _ _ _ (Nf sd Es) (R sd Es) Ea) as (i & -> & Ac). cbn [fst snd] in Rok, Rr.
        destruct (calculate_body pr ord x input (Some i) (s_args se) (mkEnv (e_vars (s_env se)) (Some sd'))) as [[a1 s1] r1] eqn:B.
        apply pair_equal_spec in C as [<- <-]. cbn [s_env]. eapply (body_calm _ _ _ _ _ _ _ _ _ _ Ha Rok Ac Rr B).
      * cbn [fst snd] in Rok, Rr. destruct (calculate_body pr ord x input None (s_args se) (mkEnv (e_vars (s_env se)) None)) as [[a1 s1] r1] eqn:B.
        apply pair_equal_spec in C as [<- <-]. cbn [s_env]. eapply (body_calm _ _ _ _ None _ _ _ _ _ Ha Rok I Rr B).
    + apply pair_equal_spec in C as [<- <-]. split; [discriminate|]. exact Nf.
  - destruct (e_db (s_env se)) as [sd|] eqn:Es; [destruct Hi; [discriminate|reflexivity]|].
    destruct (calculate_body pr ord x input None (s_args se) (s_env se)) as [[a1 s1] r1] eqn:B.
    apply pair_equal_spec in C as [<- <-]. cbn [s_env]. refine (body_calm _ _ _ _ None _ _ _ _ _ Ha Hs _ R B). rewrite Es. exact I.
Qed.
