(** ProofsCalc2.v -- the effect of an expression line on the variables. *)
From Verif Require Import Base Position Num TokenTypes Errors Token Operations SavedData Variables InputHistory
                          SyntaxTree Commands Calculate SpecGrammar SpecEval SpecHistory SpecCalc.
From Verif Require Import ProofsParse ProofsParse2 ProofsParse3 ProofsEval ProofsEval2 ProofsEval3 ProofsDb ProofsDb2 ProofsDb4 ProofsCalc.
From Coq Require Import String Permutation.
Local Open Scope nat_scope.
Local Open Scope list_scope.

(** ** Monotonicity of the meaning in the meaning of variables *)
Lemma meaning_mono (L L' : str -> position -> result -> Prop) P : (forall x p r, L x p r -> L' x p r) ->
  (forall n r, meaning L P n r -> meaning L' P n r) /\
  (forall ns qs, meanings L P ns qs -> meanings L' P ns qs) /\
  (forall ns r, first_stop L P ns r -> first_stop L' P ns r).
Proof.
  intros H. apply meaning_mutind; intros.
  - apply m_number; assumption.
  - apply m_variable. auto.
  - apply m_paren; assumption.
  - eapply m_unary; eauto.
  - eapply m_unary_stop; eauto.
  - eapply m_binary; eauto.
  - eapply m_binary_left; eauto.
  - eapply m_binary_right; eauto.
  - eapply m_function; eauto.
  - apply m_function_empty.
  - eapply m_function_stop; eauto.
  - apply ms_nil.
  - apply ms_cons; assumption.
  - apply fs_here; assumption.
  - eapply fs_later; eauto.
Qed.

(** ** Touching variables changes nothing but who used them last *)
Definition same_db (sd sd' : saved_data) : Prop :=
  same_rows (sd_db sd) (sd_db sd') /\ d_hist (sd_db sd') = d_hist (sd_db sd) /\ d_meta (sd_db sd') = d_meta (sd_db sd) /\
  d_tags (sd_db sd') = d_tags (sd_db sd) /\ sd_pos sd' = sd_pos sd /\ exists consumed, sd_faults sd = consumed ++ sd_faults sd'.
Definition same_odb (o o' : option saved_data) : Prop :=
  match o, o' with None, None => True | Some sd, Some sd' => same_db sd sd' | _, _ => False end.
Definition settled (s s' : env) : Prop := e_vars s' = e_vars s /\ same_odb (e_db s) (e_db s').
Lemma same_db_refl sd sd' : sd_db sd' = sd_db sd -> sd_pos sd' = sd_pos sd -> (exists consumed, sd_faults sd = consumed ++ sd_faults sd') -> same_db sd sd'.
Proof. intros E P F. unfold same_db. rewrite E. repeat split; auto. Qed.
Lemma same_odb_refl o : same_odb o o.
Proof. destruct o as [sd|]; [|exact I]. apply same_db_refl; auto. exists []. reflexivity. Qed.
Lemma same_odb_trans a b c : same_odb a b -> same_odb b c -> same_odb a c.
Proof.
  destruct a as [a|], b as [b|], c as [c|]; cbn; try contradiction; auto.
  intros (A1 & A2 & A3 & A4 & A5 & c1 & A6) (B1 & B2 & B3 & B4 & B5 & c2 & B6).
  split; [unfold same_rows in *; congruence|]. repeat (split; [congruence|]). exists (c1 ++ c2). rewrite A6, B6, app_assoc. reflexivity.
Qed.
Lemma settled_refl s : settled s s.
Proof. split; [reflexivity|apply same_odb_refl]. Qed.
Lemma settled_trans a b c : settled a b -> settled b c -> settled a c.
Proof. intros (A & B) (C & D). split; [congruence|eapply same_odb_trans; eauto]. Qed.

Lemma vs_touch_settled m x id odb m' odb' r : vs_touch m x id odb = (m', odb', r) -> m' = m /\ same_odb odb odb' /\ forall p, r <> Panic p.
Proof.
  unfold vs_touch. destruct odb as [sd|].
  - destruct id as [id|].
    + unfold db_result. intros E. destruct (touch_variable x id sd) as [sd' o] eqn:T. cbn [fst snd] in E.
      apply pair_equal_spec in E as [E <-]. apply pair_equal_spec in E as [<- <-]. split; [reflexivity|].
      destruct (sd_call_cases _ _ _ _ T) as (P & F & C). cbn [same_odb].
      destruct C as [(u & -> & M)|[(D & e & ->)|(D & p & -> & M)]].
      * destruct u. destruct (touch_rows _ _ _ _ M) as (A1 & A2 & A3 & A4). split; [|discriminate]. repeat split; auto.
      * split; [|discriminate]. apply same_db_refl; auto.
      * exfalso. exact (touch_never_panics _ _ _ _ M).
    + intros E. apply pair_equal_spec in E as [E <-]. apply pair_equal_spec in E as [<- <-]. split; [reflexivity|]. split; [apply same_odb_refl|discriminate].
  - destruct id; intros E; apply pair_equal_spec in E as [E <-]; apply pair_equal_spec in E as [<- <-]; (split; [reflexivity|]); split; try exact I; discriminate.
Qed.
Lemma touch_loop_settled names id : forall m odb m' odb' r, touch_loop names id m odb = (m', odb', r) -> m' = m /\ same_odb odb odb' /\ forall p, r <> Panic p.
Proof.
  induction names as [|x names IH]; intros m odb m' odb' r E; cbn [touch_loop] in E.
  - apply pair_equal_spec in E as [E <-]. apply pair_equal_spec in E as [<- <-]. split; [reflexivity|]. split; [apply same_odb_refl|discriminate].
  - destruct (vs_touch m x id odb) as [[m1 odb1] r1] eqn:T. destruct (vs_touch_settled _ _ _ _ _ _ _ T) as (-> & S1 & N1).
    destruct r1 as [u|e|p].
    + destruct (IH _ _ _ _ _ E) as (-> & S2 & N2). split; [reflexivity|]. split; [eapply same_odb_trans; eauto|exact N2].
    + apply pair_equal_spec in E as [E <-]. apply pair_equal_spec in E as [<- <-]. split; [reflexivity|]. split; [exact S1|discriminate].
    + destruct (N1 p). reflexivity.
Qed.
Lemma touch_all_settled names id s s' r : touch_all names id s = (s', r) ->
  settled s s' /\ (forall p, r <> Panic p) /\ (forall e, r = Err e -> exists e', e = RuntimeError e').
Proof.
  unfold touch_all. destruct (e_vars s) as [m|] eqn:Em.
  - destruct (touch_loop names id m (e_db s)) as [[m' odb'] o] eqn:T. intros E. apply pair_equal_spec in E as [<- <-].
    destruct (touch_loop_settled _ _ _ _ _ _ _ T) as (-> & S & N). split; [split; [cbn; congruence|exact S]|]. unfold lift_rt, map_err. split.
    + intros p E. destruct o; try discriminate E. injection E as ->. destruct (N p); reflexivity.
    + intros e E. destruct o; try discriminate E. injection E as <-. eauto.
  - intros E. apply pair_equal_spec in E as [<- <-]. split; [apply settled_refl|]. split; discriminate.
Qed.

Lemma settled_stored s s' x v : settled s s' -> (stored s x v <-> stored s' x v).
Proof.
  intros (_ & D). unfold stored. destruct (e_db s) as [sd|], (e_db s') as [sd'|]; cbn in D; try contradiction.
  - destruct D as (R & _). split; intros (sd0 & E & H); injection E as <-; eexists; (split; [reflexivity|]); eapply same_rows_disk; eauto using same_rows_sym.
  - tauto.
Qed.
Lemma settled_value s s' x v : settled s s' -> (var_value s x v <-> var_value s' x v).
Proof.
  intros H. pose proof (settled_stored s s' x v H) as S. destruct H as (V & _). unfold var_value. rewrite V. unfold stored in S.
  split; intros (m & Em & [H|(H & K)]); exists m; (split; [exact Em|]); auto; right; (split; [exact H|]); apply S; exact K.
Qed.
Lemma settled_ok s s' : settled s s' -> env_ok s -> env_ok s'.
Proof.
  intros (V & D) (A & B). split.
  - intros m x v Em. rewrite V in Em. eauto.
  - intros sd' E. rewrite E in D. destruct (e_db s) as [sd|] eqn:Es; [|contradiction]. destruct D as (R & _). eapply same_rows_ok; [exact R|]. apply B. reflexivity.
Qed.
Lemma settled_same s s' : settled s s' -> same_variables s s'.
Proof.
  intros H. pose proof H as (V & D). split; [rewrite V; tauto|]. split.
  - destruct (e_db s), (e_db s'); cbn in D; try contradiction; split; congruence.
  - split; [intros x v; apply settled_value; exact H|]. split; intros x v; [unfold remembered; rewrite V; auto|apply settled_stored; exact H].
Qed.
Lemma settled_result s s' x p r : settled s s' -> var_result s' x p r -> var_result s x p r.
Proof.
  intros (V & D) H. inversion H as [E|m v q Em Hv Hq|m sd v q Em Hn Es Ho Hq|m Em Hn Es|m sd Em Hn Es Ho|m sd Em Hn Es Hf]; subst r;
    try rewrite V in *; try (rewrite Es in D; destruct (e_db s) as [sd0|] eqn:E0; cbn in D; try contradiction).
  - apply vr_no_store. exact E.
  - eapply vr_memory; eauto.
  - destruct D as (R & _). eapply vr_disk; eauto. eapply same_rows_disk; [apply same_rows_sym; exact R|exact Ho].
  - eapply vr_unknown_memory; eauto.
  - destruct D as (R & _). eapply vr_unknown; eauto. eapply same_rows_not; [apply same_rows_sym; exact R|exact Ho].
  - destruct D as (_ & _ & _ & _ & _ & c & F). eapply vr_fault; eauto. rewrite F. apply in_app_iff. right; exact Hf.
Qed.

Lemma same_variables_refl s : same_variables s s.
Proof. repeat split; auto. Qed.
Lemma same_variables_trans a b c : same_variables a b -> same_variables b c -> same_variables a c.
Proof.
  intros (A1 & A2 & A3 & A4 & A5) (B1 & B2 & B3 & B4 & B5). split; [tauto|]. split; [tauto|]. split; [|split]; intros x v; [rewrite A3; apply B3|auto|rewrite A5; apply B5].
Qed.
Lemma values_same s s' : env_ok s -> grows s s' -> same_variables s s'.
Proof.
  intros Hok G. pose proof (grows_same _ _ Hok G) as (A & B & C). split; [exact A|]. split; [|split; [exact C|split]].
  - destruct (e_db s), (e_db s'); try contradiction; split; congruence.
  - intros x v (m & Em & H). destruct G as (V & _). rewrite Em in V. destruct (e_vars s') as [m'|] eqn:E'; [|contradiction]. exists m'. split; [exact E'|apply V; exact H].
  - intros x v. unfold stored. destruct (e_db s) as [sd|], (e_db s') as [sd'|]; try contradiction; [|tauto]. destruct B as (B & _).
    split; intros (sd0 & E & H); injection E as <-; eexists; (split; [reflexivity|]); congruence.
Qed.

(** ** The assignment at the end of a line *)
Lemma update_spec s x v id m m' odb' r : env_ok s -> canon v -> e_vars s = Some m -> vs_update m x v id (e_db s) = (m', odb', r) ->
  let s' := mkEnv (Some m') odb' in
  env_ok s' /\ assigned s s' x v /\ (forall p, r <> Panic p) /\
  (match e_db s, odb' with None, None => True | Some sd, Some sd' => d_hist (sd_db sd') = d_hist (sd_db sd) /\ d_meta (sd_db sd') = d_meta (sd_db sd) /\
     d_tags (sd_db sd') = d_tags (sd_db sd) /\ sd_pos sd' = sd_pos sd | _, _ => False end) /\
  ((r = Ok tt /\ disk_updated s' x v) \/ (exists e, r = Err e) /\ disk_kept s s' x /\ (forall sd, e_db s = Some sd -> exists sd', odb' = Some sd' /\ sd_db sd' = sd_db sd)).
Proof.
  intros Hok Cv Em E. unfold vs_update in E. cbv zeta.
  assert (Mem : forall odb2 m2, m2 = vs_insert m x v -> (forall sd, odb2 = Some sd -> rows_ok (sd_db sd)) -> env_ok (mkEnv (Some m2) odb2)).
  { intros odb2 m2 -> R. split; [|exact R]. intros m3 y w E3. cbn in E3. injection E3 as <-. rewrite vs_get_insert.
    destruct (str_eqb y x); [congruence|]. destruct Hok as (A & _). eauto. }
  assert (Rem : forall odb2, remembered (mkEnv (Some (vs_insert m x v)) odb2) x v).
  { intros odb2. eexists. split; [reflexivity|]. rewrite vs_get_insert. rewrite (proj2 (str_eqb_spec x x) eq_refl). reflexivity. }
  assert (Oth : forall odb2, (e_db s = None <-> odb2 = None) ->
     (forall y w, y <> x -> (stored s y w <-> stored (mkEnv (Some (vs_insert m x v)) odb2) y w)) ->
     assigned s (mkEnv (Some (vs_insert m x v)) odb2) x v).
  { intros odb2 N H. split; [exact N|]. split; [apply Rem|]. split; [|split; [|exact H]].
    2:{ intros y w Hy (m0 & E0 & K). rewrite Em in E0. injection E0 as <-. eexists. split; [reflexivity|]. rewrite vs_get_insert, (proj2 (str_eqb_false y x) Hy). exact K. }
    intros y w Hy. specialize (H y w Hy). unfold var_value, stored in *. cbn [e_vars e_db] in *.
    assert (G : vs_get (vs_insert m x v) y = vs_get m y) by (rewrite vs_get_insert; rewrite (proj2 (str_eqb_false y x) Hy); reflexivity).
    split.
    - intros (m0 & E0 & K). rewrite Em in E0. injection E0 as <-. eexists. split; [reflexivity|]. rewrite G. destruct K as [K|(K & L)]; [left; exact K|right; split; [exact K|apply H; exact L]].
    - intros (m0 & E0 & K). injection E0 as <-. exists m. split; [exact Em|]. rewrite G in K. destruct K as [K|(K & L)]; [left; exact K|right; split; [exact K|apply H; exact L]]. }
  destruct (e_db s) as [sd|] eqn:Es.
  - destruct id as [id|].
    + unfold db_result in E. destruct (set_variable x v id sd) as [sd' o] eqn:T. cbn [fst snd] in E.
      apply pair_equal_spec in E as [E <-]. apply pair_equal_spec in E as [<- <-].
      assert (Hr : rows_ok (sd_db sd)) by (destruct Hok as (_ & B); auto).
      destruct (sd_call_cases _ _ _ _ T) as (P & F & C). destruct C as [([] & -> & M)|[(D & e & ->)|(D & p & -> & M)]].
      * destruct (set_rows _ _ _ _ _ M Hr Cv) as (R1 & R2 & R3 & R4 & R5 & R6).
        split; [apply Mem; [reflexivity|]; intros sd0 E0; injection E0 as <-; exact R1|]. split.
        { apply Oth; [split; congruence|]. intros y w Hy. unfold stored. cbn [e_db]. rewrite Es. split; intros (sd0 & E0 & H); injection E0 as <-; eexists; (split; [reflexivity|]); apply R3; assumption. }
        split; [discriminate|]. split; [auto|]. left. split; [reflexivity|]. right. intros w. unfold stored. cbn [e_db]. split.
        { intros (sd0 & E0 & H). injection E0 as <-. apply R2. exact H. }
        { intros ->. eexists. split; [reflexivity|]. apply R2. reflexivity. }
      * split; [apply Mem; [reflexivity|]; intros sd0 E0; injection E0 as <-; rewrite D; exact Hr|]. split.
        { apply Oth; [split; congruence|]. intros y w Hy. unfold stored. cbn [e_db]. rewrite Es. split; intros (sd0 & E0 & H); injection E0 as <-; eexists; (split; [reflexivity|]); congruence. }
        split; [discriminate|]. split; [rewrite D; auto|]. right. split; [eauto|]. split.
        { intros w. unfold stored. cbn [e_db]. rewrite Es. split; intros (sd0 & E0 & H); injection E0 as <-; eexists; (split; [reflexivity|]); congruence. }
        { intros sd0 E0. injection E0 as <-. eauto. }
      * exfalso. exact (set_never_panics _ _ _ _ _ M).
    + apply pair_equal_spec in E as [E <-]. apply pair_equal_spec in E as [<- <-].
      split; [apply Mem; [reflexivity|]; intros sd0 E0; injection E0 as <-; destruct Hok as (_ & B); auto|]. split.
      { apply Oth; [split; congruence|]. intros y w Hy. unfold stored. cbn [e_db]. rewrite Es. tauto. }
      split; [discriminate|]. split; [auto|]. right. split; [eauto|]. split; [intros w; unfold stored; cbn [e_db]; rewrite Es; tauto|].
      intros sd0 E0. injection E0 as <-. eauto.
  - assert (E2 : m' = vs_insert m x v /\ odb' = None /\ (r = Ok tt \/ exists e, r = Err e)).
    { destruct id; apply pair_equal_spec in E as [E <-]; apply pair_equal_spec in E as [<- <-]; eauto. }
    destruct E2 as (-> & -> & Hr). split; [apply Mem; [reflexivity|discriminate]|]. split.
    { apply Oth; [tauto|]. intros y w Hy. unfold stored. cbn [e_db]. rewrite Es. tauto. }
    split; [destruct Hr as [->|(e & ->)]; discriminate|]. split; [exact I|].
    destruct Hr as [->|(e & ->)]; [left; split; [reflexivity|left; reflexivity]|right]. split; [eauto|]. split; [intros w; unfold stored; cbn [e_db]; rewrite Es; tauto|discriminate].
Qed.
