(** ProofsCalc4.v -- the commands. *)
From Verif Require Import Base Position Num TokenTypes Errors Token Operations SavedData Variables InputHistory
                          SyntaxTree Commands Calculate SpecGrammar SpecEval SpecHistory SpecCalc.
From Verif Require Import ProofsParse ProofsParse2 ProofsParse3 ProofsEval ProofsEval2 ProofsEval3 ProofsDb ProofsDb2 ProofsDb4 ProofsPrint ProofsEditor ProofsCalc ProofsCalc2 ProofsCalc3.
From Coq Require Import String Permutation.
Local Open Scope nat_scope.
Local Open Scope list_scope.

Lemma existsb_name y l : existsb (str_eqb y) l = true <-> In y l.
Proof. rewrite existsb_exists. split; [intros (z & H & E); apply str_eqb_spec in E as ->; exact H|intros H; exists y; split; [exact H|apply str_eqb_spec; reflexivity]]. Qed.
Lemma name_set_in l y : In y (name_set l) <-> In y (map pd_value l).
Proof.
  induction l as [|t l IH]; [reflexivity|]. cbn [name_set map In]. destruct (existsb _ _) eqn:E.
  - apply existsb_name in E. rewrite IH. split; [auto|]. intros [<-|H]; [apply IH; exact E|exact H].
  - cbn [In]. rewrite IH. reflexivity.
Qed.
Lemma name_set_nodup l : NoDup (name_set l).
Proof.
  induction l as [|t l IH]; [constructor|]. cbn [name_set]. destruct (existsb _ _) eqn:E; [exact IH|]. constructor; [|exact IH]. intros H. apply existsb_name in H. congruence.
Qed.
Lemma vs_get_remove m x y : vs_get (vs_remove m x) y = if str_eqb y x then None else vs_get m y.
Proof.
  unfold vs_remove. induction m as [|[k v] m IH]; [cbn; destruct (str_eqb y x); reflexivity|]. cbn [filter fst vs_get].
  destruct (str_eqb x k) eqn:E; cbn [negb vs_get].
  - rewrite IH. apply str_eqb_spec in E. subst k. destruct (str_eqb y x); reflexivity.
  - destruct (str_eqb y k) eqn:E2; [|exact IH]. apply str_eqb_spec in E2. subst y.
    destruct (str_eqb k x) eqn:E3; [|reflexivity]. apply str_eqb_spec in E3. subst k. rewrite (proj2 (str_eqb_spec x x) eq_refl) in E. discriminate E.
Qed.

(** ** /purgevar *)
Definition odb_disk (o : option saved_data) (x : str) (v : Q) : Prop := exists sd, o = Some sd /\ on_disk (sd_db sd) x v.
Definition odb_ok (o : option saved_data) : Prop := forall sd, o = Some sd -> rows_ok (sd_db sd).
Lemma vs_purge_spec m x odb m' odb' r : odb_ok odb -> vs_purge m x odb = (m', odb', r) ->
  odb_ok odb' /\ hist_kept odb odb' /\ (forall p, r <> Panic p) /\
  (forall y, vs_get m' y = if str_eqb y x then None else vs_get m y) /\
  (forall y v, y <> x -> (odb_disk odb y v <-> odb_disk odb' y v)) /\
  (forall v, odb_disk odb' x v -> odb_disk odb x v) /\
  (r = Ok tt -> forall v, ~ odb_disk odb' x v).
Proof.
  intros Hok. unfold vs_purge. cbv zeta. destruct odb as [sd|].
  - destruct (clear_variable x sd) as [sd' o] eqn:T. intros E. apply pair_equal_spec in E as [E <-]. apply pair_equal_spec in E as [<- <-].
    pose proof (Hok sd eq_refl) as Hr. destruct (sd_call_cases _ _ _ _ T) as (P & F & C).
    destruct C as [([] & -> & M)|[(D & e & ->)|(D & p & -> & M)]].
    + destruct (clear_rows _ _ _ M Hr) as (R1 & R2 & R3 & R4 & R5 & R6).
      split; [intros sd0 E; injection E as <-; exact R1|]. split; [cbn; auto|]. split; [discriminate|]. split; [apply vs_get_remove|].
      assert (G : forall v, ~ odb_disk (Some sd') x v).
      { intros v (sd0 & E & H). injection E as <-. exact (proj1 (not_on_disk_iff _ _ R1) R2 v H). }
      split; [|split; [intros v H; destruct (G v H)|auto]].
      intros y v Hy. split; intros (sd0 & E & H); injection E as <-; eexists; (split; [reflexivity|]); apply (R3 y v Hy); exact H.
    + split; [intros sd0 E; injection E as <-; rewrite D; exact Hr|]. split; [cbn; rewrite D; auto|]. split; [discriminate|]. split; [apply vs_get_remove|].
      assert (G : forall y v, odb_disk (Some sd) y v <-> odb_disk (Some sd') y v).
      { intros y v. split; intros (sd0 & E & H); injection E as <-; eexists; (split; [reflexivity|]); congruence. }
      split; [intros y v _; apply G|]. split; [intros v; apply G|discriminate].
    + unfold tx_clear_variable, sql_var_delete in M. discriminate M.
  - intros E. apply pair_equal_spec in E as [E <-]. apply pair_equal_spec in E as [<- <-].
    split; [discriminate|]. split; [exact I|]. split; [discriminate|]. split; [apply vs_get_remove|].
    split; [tauto|]. split; [tauto|]. intros _ v (sd & E & _). discriminate E.
Qed.
Lemma purge_loop_spec names : forall m odb m' odb' r, odb_ok odb -> purge_loop names m odb = (m', odb', r) ->
  odb_ok odb' /\ hist_kept odb odb' /\ (forall p, r <> Panic p) /\
  (forall y, ~ In y names -> vs_get m' y = vs_get m y) /\ (forall y v, vs_get m' y = Some v -> vs_get m y = Some v) /\
  (forall y v, ~ In y names -> (odb_disk odb y v <-> odb_disk odb' y v)) /\ (forall y v, odb_disk odb' y v -> odb_disk odb y v) /\
  (r = Ok tt -> forall y, In y names -> vs_get m' y = None /\ forall v, ~ odb_disk odb' y v).
Proof.
  induction names as [|x names IH]; intros m odb m' odb' r Hok E; cbn [purge_loop] in E.
  - apply pair_equal_spec in E as [E <-]. apply pair_equal_spec in E as [<- <-].
    split; [exact Hok|]. split; [apply hist_kept_refl|]. split; [discriminate|]. repeat (split; [tauto|]). intros _ y [].
  - destruct (vs_purge m x odb) as [[m1 odb1] r1] eqn:T. destruct (vs_purge_spec _ _ _ _ _ _ Hok T) as (A1 & A2 & A3 & A4 & A5 & A6 & A7).
    assert (Sub1 : forall y v, odb_disk odb1 y v -> odb_disk odb y v).
    { intros y v H. destruct (str_eqb y x) eqn:Ey; [apply str_eqb_spec in Ey; subst y; auto|apply str_eqb_false in Ey; apply (A5 y v Ey); exact H]. }
    assert (Sub2 : forall y v, vs_get m1 y = Some v -> vs_get m y = Some v).
    { intros y v. rewrite A4. destruct (str_eqb y x); [discriminate|auto]. }
    destruct r1 as [u|e|p]; [destruct u| |destruct (A3 p eq_refl)].
    + destruct (IH _ _ _ _ _ A1 E) as (B1 & B2 & B3 & B4 & B5 & B6 & B7 & B8).
      split; [exact B1|]. split; [eapply hist_kept_trans; eauto|]. split; [exact B3|].
      assert (Nx : forall y, ~ In y (x :: names) -> str_eqb y x = false /\ y <> x /\ ~ In y names).
      { intros y H. assert (y <> x) by (intros ->; apply H; left; reflexivity). split; [apply str_eqb_false; auto|]. split; [auto|]. intros K; apply H; right; exact K. }
      split; [intros y H; destruct (Nx y H) as (N1 & N2 & N3); rewrite (B4 y N3), A4, N1; reflexivity|].
      split; [intros y v H; apply Sub2, B5, H|].
      split; [intros y v H; destruct (Nx y H) as (N1 & N2 & N3); rewrite (A5 y v N2); apply B6; exact N3|].
      split; [intros y v H; apply Sub1, B7, H|].
      intros Hr y Hy. destruct (in_dec (list_eq_dec N.eq_dec) y names) as [I|I]; [apply (B8 Hr y I)|]. destruct Hy as [<-|Hy]; [|contradiction].
      split.
      * rewrite (B4 x I), A4, (proj2 (str_eqb_spec x x) eq_refl). reflexivity.
      * intros v H. apply (A7 eq_refl v). apply B7. exact H.
    + apply pair_equal_spec in E as [E <-]. apply pair_equal_spec in E as [<- <-].
      split; [exact A1|]. split; [exact A2|]. split; [discriminate|].
      split; [intros y H; rewrite A4; assert (y <> x) by (intros ->; apply H; left; reflexivity); rewrite (proj2 (str_eqb_false y x)) by assumption; reflexivity|].
      split; [exact Sub2|]. split; [intros y v H; apply A5; intros ->; apply H; left; reflexivity|]. split; [exact Sub1|discriminate].
Qed.

(** ** /reloadvar *)
Definition db_read (sd sd' : saved_data) : Prop :=
  sd_db sd' = sd_db sd /\ sd_pos sd' = sd_pos sd /\ exists consumed, sd_faults sd = consumed ++ sd_faults sd'.
Lemma db_read_refl sd : db_read sd sd.
Proof. repeat split. exists []. reflexivity. Qed.
Lemma db_read_trans a b c : db_read a b -> db_read b c -> db_read a c.
Proof. intros (A & B & c1 & C) (D & E & c2 & F). repeat split; try congruence. exists (c1 ++ c2). rewrite C, F, app_assoc. reflexivity. Qed.
Lemma get_variable_spec x sd sd' o : rows_ok (sd_db sd) -> get_variable x sd = (sd', o) ->
  db_read sd sd' /\ ((exists v, o = Ok (Some v) /\ on_disk (sd_db sd) x v /\ canon v) \/ (o = Ok None /\ not_on_disk (sd_db sd) x) \/ exists e, o = Err e).
Proof.
  intros Hr T. destruct (sd_call_cases _ _ _ _ T) as (P & F & C). destruct (tx_get_variable_ok _ x Hr) as [(v & G & D & Cv)|(G & D)];
    rewrite G in C; destruct C as [(u & -> & M)|[(D' & e & ->)|(D' & p & -> & M)]]; try discriminate M;
    try (apply ok_inj, pair_equal_spec in M as [<- M]); (split; [repeat split; auto|]); eauto 6.
Qed.
Lemma reload_loop_spec names : forall out touched m sd m' sd' r, rows_ok (sd_db sd) ->
  reload_loop names out touched m sd = (m', sd', r) ->
  db_read sd sd' /\ (forall p, r <> Panic p) /\
  (forall y, ~ In y names -> vs_get m' y = vs_get m y) /\
  (forall y, vs_get m' y = vs_get m y \/ exists v, vs_get m' y = Some v /\ on_disk (sd_db sd) y v /\ canon v) /\
  (forall o t, r = Ok (o, t) -> t = touched ++ names /\ forall y, In y names ->
     (exists v, on_disk (sd_db sd) y v /\ vs_get m' y = Some v) \/ (not_on_disk (sd_db sd) y /\ vs_get m' y = vs_get m y)).
Proof.
  induction names as [|x names IH]; intros out touched m sd m' sd' r Hok E; cbn [reload_loop] in E.
  - apply pair_equal_spec in E as [E <-]. apply pair_equal_spec in E as [<- <-].
    split; [apply db_read_refl|]. split; [discriminate|]. split; [auto|]. split; [auto|].
    intros o t E. apply ok_inj, pair_equal_spec in E as [_ <-]. rewrite app_nil_r. split; [reflexivity|]. intros y [].
  - cbv zeta in E. unfold vs_reload in E. destruct (get_variable x sd) as [sd1 o1] eqn:G.
    destruct (get_variable_spec _ _ _ _ Hok G) as (R & C). pose proof R as (R1 & R2 & R3).
    assert (Hok1 : rows_ok (sd_db sd1)) by (rewrite R1; exact Hok).
    destruct C as [(v & -> & D & Cv)|[(-> & D)|(e & ->)]].
    + destruct (IH _ _ _ _ _ _ _ Hok1 E) as (B1 & B2 & B3 & B4 & B5). rewrite R1 in *.
      split; [eapply db_read_trans; eauto|]. split; [exact B2|].
      split; [intros y Hy; rewrite B3 by (intros I; apply Hy; right; exact I); rewrite vs_get_insert, (proj2 (str_eqb_false y x)); [reflexivity|intros ->; apply Hy; left; reflexivity]|].
      split.
      { intros y. destruct (B4 y) as [B|B]; [|right; exact B]. rewrite B, vs_get_insert. destruct (str_eqb y x) eqn:Ey; [|left; reflexivity].
        apply str_eqb_spec in Ey. subst y. right. eauto. }
      intros o t Er. destruct (B5 o t Er) as (-> & B). rewrite <- app_assoc. split; [reflexivity|].
      intros y Hy. destruct (in_dec (list_eq_dec N.eq_dec) y names) as [I|I].
      { destruct (B y I) as [K|(K1 & K2)]; [left; exact K|]. right. split; [exact K1|]. rewrite K2, vs_get_insert.
        destruct (str_eqb y x) eqn:Ey; [|reflexivity]. apply str_eqb_spec in Ey. subst y. exfalso. exact (proj1 (not_on_disk_iff _ _ Hok) K1 v D). }
      destruct Hy as [<-|Hy]; [|contradiction]. left. exists v. split; [exact D|]. rewrite (B3 x I), vs_get_insert, (proj2 (str_eqb_spec x x) eq_refl). reflexivity.
    + destruct (IH _ _ _ _ _ _ _ Hok1 E) as (B1 & B2 & B3 & B4 & B5). rewrite R1 in *.
      split; [eapply db_read_trans; eauto|]. split; [exact B2|].
      split; [intros y Hy; apply B3; intros I; apply Hy; right; exact I|]. split; [exact B4|].
      intros o t Er. destruct (B5 o t Er) as (-> & B). rewrite <- app_assoc. split; [reflexivity|].
      intros y Hy. destruct (in_dec (list_eq_dec N.eq_dec) y names) as [I|I]; [apply (B y I)|].
      destruct Hy as [<-|Hy]; [|contradiction]. right. split; [exact D|]. apply B3. exact I.
    + apply pair_equal_spec in E as [E <-]. apply pair_equal_spec in E as [<- <-].
      split; [exact R|]. split; [discriminate|]. split; [auto|]. split; [auto|discriminate].
Qed.

(** ** The table *)
Definition the_executor : executor :=
  match @executor_new Empty_set with Ok x => x | _ => mkExec [] [] end.
Lemma executor_new_ok E : @executor_new E = Ok the_executor.
Proof. vm_compute. reflexivity. Qed.
