(** ProofsTouch.v -- which input a saved variable hangs on after a line (C37). *)
From Verif Require Import Base SpecDecimal ProofsShow Position Num TokenTypes Errors Token Operations SavedData Variables InputHistory
                          SyntaxTree Commands Calculate SpecGrammar SpecEval SpecHistory SpecEditor SpecCalc.
From Verif Require Import ProofsParse ProofsParse2 ProofsParse3 ProofsEval ProofsEval2 ProofsEval3 ProofsDb ProofsDb2 ProofsDb4 ProofsPrint
  ProofsCalc ProofsCalc2 ProofsCalc3 ProofsCalc4 ProofsCalc5 ProofsCalc6 ProofsCalc7 ProofsCalc9.
From Coq Require Import String Permutation Lia.
Local Open Scope nat_scope.
Local Open Scope list_scope.

Lemma str_dec a b : reflect (a = b) (str_eqb a b).
Proof. destruct (str_eqb a b) eqn:E; constructor; [apply str_eqb_spec; exact E|apply str_eqb_false; exact E]. Qed.
Lemma touch_saved x i d d' : sql_var_touch x i d = Ok (tt, d') -> forall y q k,
  saved d' y q k <-> (y = x /\ k = i /\ exists k0, saved d x q k0) \/ (y <> x /\ saved d y q k).
Proof.
  unfold sql_var_touch. destruct (existsb (fun v => str_eqb (v_name v) x) (d_vars d)) eqn:Ex.
  - destruct (has_id _ _); [|discriminate]. intros E; apply ok_inj, pair_equal_spec in E as [_ <-]. intros y q k. unfold saved at 1. cbn [set_vars d_vars]. split.
    + intros (r & Hr & Hn & C & N & D & U). apply in_map_iff in Hr as (r0 & <- & Hr). destruct (str_dec (v_name r0) x) as [X|X]; cbn [v_name v_numer v_denom v_used] in *.
      * left. split; [congruence|]. split; [congruence|]. exists (v_used r0), r0. auto 8.
      * right. split; [congruence|]. exists r0. auto 8.
    + intros [(-> & -> & k0 & r & Hr & Hn & C & N & D & U)|(Hy & r & Hr & Hn & C & N & D & U)].
      * exists (mkVar x (v_numer r) (v_denom r) i). split; [|cbn; auto 8]. apply in_map_iff. exists r. split; [|exact Hr]. rewrite Hn, (proj2 (str_eqb_spec x x) eq_refl). reflexivity.
      * exists r. split; [|auto 8]. apply in_map_iff. exists r. split; [|exact Hr]. destruct (str_dec (v_name r) x) as [X|X]; [|reflexivity]. congruence.
  - intros E; apply ok_inj, pair_equal_spec in E as [_ <-]. intros y q k. split.
    + intros S. right. split; [|exact S]. intros ->. destruct S as (r & Hr & Hn & _). assert (F : existsb (fun v => str_eqb (v_name v) x) (d_vars d) = true); [|congruence].
      apply existsb_exists. exists r. split; [exact Hr|]. apply str_eqb_spec. exact Hn.
    + intros [(-> & -> & k0 & r & Hr & Hn & _)|(_ & S)]; [|exact S]. exfalso. assert (F : existsb (fun v => str_eqb (v_name v) x) (d_vars d) = true); [|congruence].
      apply existsb_exists. exists r. split; [exact Hr|]. apply str_eqb_spec. exact Hn.
Qed.
Lemma set_saved x v i d d' : canon v -> tx_set_variable x v i d = Ok (tt, d') -> forall y q k,
  saved d' y q k <-> (y = x /\ q = v /\ k = i) \/ (y <> x /\ saved d y q k).
Proof.
  intros Cv T y q k. assert (E : d_vars d' = filter (fun r => negb (str_eqb (v_name r) x)) (d_vars d) ++ [mkVar x (show_Z (Qnum v)) (show_Z (Zpos (Qden v))) i]).
  { revert T. unfold tx_set_variable. change (@to_str_radix runtime_error (Qnum v) VARIABLE_STORAGE_RADIX) with (@Ok runtime_error _ (show_Z (Qnum v))).
    change (@to_str_radix runtime_error (Zpos (Qden v)) VARIABLE_STORAGE_RADIX) with (@Ok runtime_error _ (show_Z (Zpos (Qden v)))).
    cbn [bind]. unfold sql_var_insert. cbn [v_used v_name]. destruct (has_id (d_hist d) i); [|discriminate]. intros E; apply ok_inj, pair_equal_spec in E as [_ <-]. reflexivity. }
  split.
  - intros (r & Hr & Hn & C & N & D & U). rewrite E in Hr. apply in_app_iff in Hr as [Hr|[<-|[]]].
    + apply filter_In in Hr as [Hr X]. right. split; [|exists r; auto 8]. intros ->. rewrite Hn, (proj2 (str_eqb_spec x x) eq_refl) in X. discriminate X.
    + cbn [v_name v_numer v_denom v_used] in *. left. split; [congruence|]. split; [|congruence].
      assert (X1 : row_holds (mkVar x (show_Z (Qnum v)) (show_Z (Zpos (Qden v))) i) q) by (split; [exact C|split; assumption]).
      assert (X2 : row_holds (mkVar x (show_Z (Qnum v)) (show_Z (Zpos (Qden v))) i) v) by (apply row_holds_show; split; [exact Cv|split; reflexivity]).
      eapply row_holds_inj; eauto.
  - intros [(-> & -> & ->)|(Hy & r & Hr & Hn & C & N & D & U)].
    + eexists. rewrite E. split; [apply in_app_iff; right; left; reflexivity|]. cbn [v_name v_numer v_denom v_used]. rewrite !show_Z_decimal. auto 8.
    + exists r. rewrite E. split; [|auto 8]. apply in_app_iff. left. apply filter_In. split; [exact Hr|]. destruct (str_dec (v_name r) x) as [X|X]; [congruence|reflexivity].
Qed.
(** Touching several. *)
Definition moved (names : list str) (i : Z) (d d' : database) : Prop := forall y q k,
  saved d' y q k <-> (In y names /\ k = i /\ exists k0, saved d y q k0) \/ (~ In y names /\ saved d y q k).
Lemma touch_loop_moved names i : forall m sd m' db', touch_loop names (Some i) m (Some sd) = (m', db', Ok tt) ->
  m' = m /\ exists sd', db' = Some sd' /\ moved names i (sd_db sd) (sd_db sd').
Proof.
  induction names as [|x names IH]; intros m sd m' db' E; cbn [touch_loop] in E.
  - apply pair_equal_spec in E as [E _]. apply pair_equal_spec in E as [<- <-]. split; [reflexivity|]. exists sd. split; [reflexivity|].
    intros y q k. cbn. tauto.
  - unfold vs_touch, db_result in E. destruct (touch_variable x i sd) as [sd1 o] eqn:T. cbn [fst snd] in E.
    destruct o as [[]|e|p]; [|apply pair_equal_spec in E as [_ E]; discriminate E|apply pair_equal_spec in E as [_ E]; discriminate E].
    destruct (IH _ _ _ _ E) as (-> & sd' & -> & M). split; [reflexivity|]. exists sd'. split; [reflexivity|].
    destruct (sd_call_cases _ _ _ _ T) as (_ & _ & [([] & _ & M1)|[(_ & e & [=])|(_ & p & [=] & _)]]).
    pose proof (touch_saved _ _ _ _ M1) as S1. intros y q k. rewrite (M y q k). cbn [In]. destruct (str_dec x y) as [<-|N].
    + split.
      * intros [(I & -> & k0 & S)|(I & S)].
        { left. split; [auto|]. split; [reflexivity|]. apply S1 in S as [(_ & _ & S)|(N & _)]; [exact S|destruct (N eq_refl)]. }
        { left. split; [auto|]. apply S1 in S as [(_ & -> & S)|(N & _)]; [split; [reflexivity|exact S]|destruct (N eq_refl)]. }
      * intros [(_ & -> & k0 & S)|(I & _)]; [|destruct I; auto].
        assert (S' : saved (sd_db sd1) x q i) by (apply S1; left; eauto).
        destruct (in_dec (list_eq_dec N.eq_dec) x names) as [I|I]; [left|right]; eauto.
    + split.
      * intros [(I & -> & k0 & S)|(I & S)]; apply S1 in S as [(-> & _)|(_ & S)]; try (destruct (N eq_refl)); [left|right]; [eauto|split; [intros [->|I']; auto|exact S]].
      * intros [([->|I] & -> & k0 & S)|(I & S)]; [destruct (N eq_refl)|left|right].
        { split; [exact I|]. split; [reflexivity|]. exists k0. apply S1. right. split; [congruence|exact S]. }
        { split; [tauto|]. apply S1. right. split; [congruence|exact S]. }
Qed.
Lemma touch_all_moved names i m sd s s' : e_vars s = Some m -> e_db s = Some sd -> touch_all names (Some i) s = (s', Ok tt) ->
  e_vars s' = Some m /\ exists sd', e_db s' = Some sd' /\ moved names i (sd_db sd) (sd_db sd').
Proof.
  intros Em Ed. unfold touch_all. rewrite Em, Ed. destruct (touch_loop names (Some i) m (Some sd)) as [[m' db'] r] eqn:L. intros E. apply pair_equal_spec in E as [<- E].
  destruct r as [[]|e|p]; [|discriminate E|discriminate E]. destruct (touch_loop_moved _ _ _ _ _ _ L) as (-> & sd' & -> & M). split; [reflexivity|]. exists sd'. auto.
Qed.
Lemma moved_perm a b i d d' : (forall y, In y a <-> In y b) -> moved a i d d' -> moved b i d d'.
Proof. intros H M y q k. rewrite (M y q k), H. tauto. Qed.
Lemma token_variables_in ts y : In y (token_variables ts) <-> exists p, In (tk (TVariable y) p) ts.
Proof.
  induction ts as [|[t p0] ts IH]; cbn [token_variables]; [split; [intros []|intros (p & [])]|]. cbn [pd_value].
  assert (Skip : (forall z, t <> TVariable z) -> (In y (token_variables ts) <-> exists p, In (tk (TVariable y) p) (mkPositioned t p0 :: ts))).
  { intros Hz. rewrite IH. split; intros (p & H); exists p; [right; exact H|]. destruct H as [H|H]; [|exact H]. exfalso. injection H as E _. exact (Hz y E). }
  destruct t as [name| | |v| | |op|op|fn]; try (apply Skip; discriminate).
  destruct (existsb (str_eqb name) (token_variables ts)) eqn:X.
  - apply existsb_exists in X as (z & Hz & Ez). apply str_eqb_spec in Ez as <-. split.
    + intros H. apply IH in H as (p & H). exists p. right. exact H.
    + intros (p & [H|H]); [injection H as <- _; exact Hz|apply IH; eauto].
  - split.
    + intros [<-|H]; [exists p0; left; reflexivity|]. apply IH in H as (p & H). exists p. right. exact H.
    + intros (p & [H|H]); [injection H as <- _; left; reflexivity|right; apply IH; eauto].
Qed.

Lemma body_moves pr ord x input i a s a' s' r ts m sd : valid_settings a -> env_ok s -> iterates ord ->
  e_vars s = Some m -> e_db s = Some sd -> tokenize input (a_radix a) = Ok (PTokens ts) ->
  calculate_body pr ord x input (Some i) a s = (a', s', r) -> (forall e, r <> Err (RuntimeError e)) ->
  exists sd', e_db s' = Some sd' /\ forall y q k, saved (sd_db sd') y q k <->
    (~ mentions ts y /\ saved (sd_db sd) y q k) \/
    (mentions ts y /\ k = i /\
       ((assigns ts y r /\ remembered s' y q) \/ (~ assigns ts y r /\ exists k0, saved (sd_db sd) y q k0))).
Proof.
  intros Ha Hs Ho Em Ed T. unfold calculate_body. rewrite T.
  destruct (touch_all (ord (token_variables ts)) (Some i) s) as [s1 r1] eqn:Et. destruct (touch_all_settled _ _ _ _ _ Et) as (St & Np & Ne).
  pose proof (settled_ok _ _ St Hs) as Hs1.
  destruct r1 as [[]|e|p]; [|destruct (Ne e eq_refl) as (e' & ->)|destruct (Np p eq_refl)].
  2:{ intros E N. apply pair_equal_spec in E as [_ <-]. destruct (N e' eq_refl). }
  destruct (touch_all_moved _ _ _ _ _ _ Em Ed Et) as (Em1 & sd1 & Ed1 & Mv).
  apply (moved_perm _ (token_variables ts)) in Mv; [|intros y; split; apply Permutation_in; [apply Ho|apply Permutation_sym, Ho]].
  assert (Mt : forall y q k, saved (sd_db sd1) y q k <-> (~ mentions ts y /\ saved (sd_db sd) y q k) \/ (mentions ts y /\ k = i /\ exists k0, saved (sd_db sd) y q k0)).
  { intros y q k. rewrite (Mv y q k), token_variables_in. unfold mentions. tauto. }
  assert (Plain : forall s2 sd2 r2, e_db s2 = Some sd2 -> sd_db sd2 = sd_db sd1 -> (forall y, ~ assigns ts y r2) ->
    exists sd', e_db s2 = Some sd' /\ forall y q k, saved (sd_db sd') y q k <->
    (~ mentions ts y /\ saved (sd_db sd) y q k) \/
    (mentions ts y /\ k = i /\ ((assigns ts y r2 /\ remembered s2 y q) \/ (~ assigns ts y r2 /\ exists k0, saved (sd_db sd) y q k0)))).
  { intros s2 sd2 r2 E2 D2 Na. exists sd2. split; [exact E2|]. intros y q k. rewrite D2, Mt. specialize (Na y). tauto. }
  destruct ts as [|t0 ts'].
  { intros E _. apply pair_equal_spec in E as [E <-]. apply pair_equal_spec in E as [_ <-]. eapply Plain; [exact Ed1|reflexivity|].
    intros y ((n & p & q & rest & X & _) & _). discriminate X. }
  remember (t0 :: ts') as ts eqn:Ets. clear Ets t0 ts'.
  destruct (syntax_tree_new ts) as [t|e|p] eqn:P.
  3:{ exfalso. exact (parse_total ts p P). }
  2:{ intros E _. apply pair_equal_spec in E as [E <-]. apply pair_equal_spec in E as [_ <-]. eapply Plain; [exact Ed1|reflexivity|].
      intros y (_ & text & X). discriminate X. }
  destruct (tree_execute pr a t (Some i) s1) as [s2 r2] eqn:Ex. intros E Nr. apply pair_equal_spec in E as [E <-]. apply pair_equal_spec in E as [_ <-].
  pose proof (typed_literals input (a_radix a) ts t (proj1 Ha) T P) as Lit.
  unfold tree_execute in Ex. destruct (exec pr a (st_root t) s1) as [s3 r3] eqn:Ee.
  destruct (exec_sound pr a (power_with pr a) (exec_power_sound pr a (valid_settings_ok _ Ha)) s1 Hs1 _ Lit s1 (grows_refl s1) s3 r3 Ee) as (G & M & C).
  pose proof (grows_same _ _ Hs1 G) as (_ & Sd & _). rewrite Ed1 in Sd.
  destruct (e_db s3) as [sd3|] eqn:Ed3; [|destruct Sd]. destruct Sd as (Sd & _).
  destruct r3 as [v|e|p]; cbn [then_do] in Ex.
  2:{ apply pair_equal_spec in Ex as [<- <-]. eapply Plain; [exact Ed3|congruence|]. intros y (_ & text & X). discriminate X. }
  2:{ apply pair_equal_spec in Ex as [<- <-]. eapply Plain; [exact Ed3|congruence|]. intros y (_ & text & X). discriminate X. }
  specialize (C v eq_refl). destruct (st_var t) as [[y p]|] eqn:Ev.
  2:{ apply pair_equal_spec in Ex as [<- <-]. eapply Plain; [exact Ed3|congruence|].
      intros y ((n & A) & _). destruct (assignment_tree _ _ _ _ P A) as (p & ->). discriminate Ev. }
  cbn [pd_value pd_pos] in Ex. destruct (e_vars s3) as [m3|] eqn:Em3.
  2:{ apply pair_equal_spec in Ex as [<- <-]. eapply Plain; [exact Ed3|congruence|]. intros z (_ & text & X). discriminate X. }
  unfold vs_update in Ex. destruct (set_variable y v i sd3) as [sd4 o] eqn:Sv. rewrite ?Ed3 in Ex. unfold db_result in Ex. rewrite Sv in Ex. cbn [fst snd] in Ex.
  apply pair_equal_spec in Ex as [<- <-]. destruct o as [[]|e|p4]; [|exfalso; exact (Nr e eq_refl)|].
  2:{ exfalso. destruct (sd_call_cases _ _ _ _ Sv) as (_ & _ & [([] & [=] & _)|[(_ & e & [=])|(_ & p' & _ & X)]]). exact (set_never_panics _ _ _ _ _ X). }
  destruct (sd_call_cases _ _ _ _ Sv) as (_ & _ & [([] & _ & X)|[(_ & e & [=])|(_ & p' & [=] & _)]]).
  pose proof (set_saved _ _ _ _ _ C X) as Ss. exists sd4. split; [reflexivity|].
  destruct (format_result_ok (E := failure) a v Ha) as (text & F).
  assert (As : forall z, assigns ts z (@format_result failure a v) <-> z = y).
  { intros z. split.
    - intros ((n & A) & _). destruct (assignment_tree _ _ _ _ P A) as (p1 & ->). cbn [st_var] in Ev. congruence.
    - intros ->. split; [|eauto]. apply parse_iff in P. inversion P as [ts0 n D|y0 p0 q0 ts0 n D]; subst; cbn [st_root st_var] in *; [discriminate Ev|]. injection Ev as <- <-.
      exists n, p0, q0, ts0. auto. }
  assert (My : mentions ts y).
  { apply parse_iff in P. inversion P as [ts0 n D|y0 p0 q0 ts0 n D]; subst; cbn [st_root st_var] in *; [discriminate Ev|]. injection Ev as <- <-. exists p0. left. reflexivity. }
  assert (Rm : forall w, remembered (mkEnv (Some (vs_insert m3 y v)) (Some sd4)) y w <-> w = v).
  { intros w. unfold remembered. cbn [e_vars]. split.
    - intros (m0 & [= <-] & H). rewrite vs_get_insert, (proj2 (str_eqb_spec y y) eq_refl) in H. congruence.
    - intros ->. eexists. split; [reflexivity|]. rewrite vs_get_insert, (proj2 (str_eqb_spec y y) eq_refl). reflexivity. }
  intros z q k. rewrite (Ss z q k), As, <- Sd, Mt. destruct (str_dec z y) as [->|N].
  - rewrite Rm. tauto.
  - tauto.
Qed.
