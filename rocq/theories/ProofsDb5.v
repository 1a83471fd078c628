(** ProofsDb5.v -- lifetime and values of saved variables. *)
From Verif Require Import Base Position Num TokenTypes Errors SavedData Sessions SpecEval SpecHistory ProofsLex ProofsText ProofsNum ProofsEval ProofsDb ProofsDb2 ProofsDb3 ProofsDb4.
From Coq Require Import String Sorted.
Local Open Scope nat_scope.
Local Open Scope list_scope.

Lemma set_var_some f x e y q id : set_var f x e y = Some (q, id) <-> (y = x /\ e = Some (q, id)) \/ (y <> x /\ f y = Some (q, id)).
Proof.
  unfold set_var. destruct (str_eqb y x) eqn:E.
  - apply str_eqb_spec in E. subst. tauto.
  - apply str_eqb_false in E. tauto.
Qed.

Lemma saved_is_used w x q id : reachable w -> saved (w_file w) x q id -> In id (ids_of (w_file w)).
Proof.
  intros H Hs. destruct (reachable_file w H) as [[E _]|[st R]].
  - rewrite E in Hs. destruct Hs as (r & [] & _).
  - rewrite (rep_ids _ _ R). apply (rep_saved _ _ _ _ _ R) in Hs. eapply rp_used; eauto.
Qed.
Lemma saved_function w x q id q' id' : reachable w -> saved (w_file w) x q id -> saved (w_file w) x q' id' -> q = q' /\ id = id'.
Proof.
  intros H Hs Hs'. destruct (reachable_file w H) as [[E _]|[st R]].
  - rewrite E in Hs. destruct Hs as (r & [] & _).
  - apply (rep_saved _ _ _ _ _ R) in Hs, Hs'. rewrite Hs in Hs'. injection Hs' as <- <-. auto.
Qed.

Lemma shrink_saved cap l f x q id : st_vars (shrink cap l f) x = Some (q, id) <-> f x = Some (q, id) /\ In id (map fst (newest cap l)).
Proof.
  cbn [shrink st_vars]. rewrite <- has_input_in. destruct (f x) as [[q' id']|].
  - destruct (has_input (newest cap l) id') eqn:E; split.
    + intros A. injection A as <- <-. auto.
    + tauto.
    + discriminate.
    + intros [A B]. injection A as <- <-. congruence.
  - split; [discriminate|]. intros [A _]. discriminate A.
Qed.

Lemma eviction_only w i fault c w' r : reachable w -> step i fault c w = (w', r) ->
  (forall x q id, c <> SetVariable x q id) -> (forall x id, c <> TouchVariable x id) -> (forall x, c <> ClearVariable x) ->
  forall x q id, saved (w_file w') x q id <-> saved (w_file w) x q id /\ In id (ids_of (w_file w')).
Proof.
  intros H E N1 N2 N3 x q id. assert (Hq : forall x q id, c = SetVariable x q id -> canon q) by (intros ? ? ? C; destruct (N1 _ _ _ C)).
  assert (H' : reachable w') by (pose proof (reachable_step w i fault c H Hq) as P; rewrite E in P; exact P).
  assert (Same : w_file w' = w_file w -> saved (w_file w') x q id <-> saved (w_file w) x q id /\ In id (ids_of (w_file w'))).
  { intros Ef. rewrite Ef. split; [|tauto]. intros Hs. split; [exact Hs|eapply saved_is_used; eauto]. }
  destruct (w_pos w i) as [pos|] eqn:Ep.
  2:{ destruct (call_cases c) as [->|Hc].
      - unfold step, sd_open, sd_call in E. cbn [sd_faults sd_db sd_pos] in E. destruct fault.
        + apply pair_equal_spec in E as [<- <-]. apply Same. reflexivity.
        + destruct (reachable_file w H) as [[Ef _]|[st R]].
          * rewrite Ef, open_empty in E. apply pair_equal_spec in E as [<- <-]. rewrite Ef. cbn.
            split; [intros (r0 & [] & _)|intros [(r0 & [] & _) _]].
          * rewrite (open_rep _ _ R) in E. apply pair_equal_spec in E as [<- <-]. apply Same. reflexivity.
      - assert (c <> Open) by (destruct Hc as [->|[]]; [discriminate|assumption]).
        rewrite step_closed in E by assumption. apply pair_equal_spec in E as [<- <-]. apply Same. reflexivity. }
  assert (Ho : is_open w i) by (unfold is_open; congruence). destruct (reachable_open w i H Ho) as [st R].
  destruct (step_cases _ _ _ _ _ _ _ R Ho E Hq) as [[Ef _]|(_ & _ & _ & -> & R')]; [apply Same, Ef|].
  rewrite (rep_saved _ _ _ _ _ R), (rep_saved _ _ _ _ _ R'), (rep_ids _ _ R').
  assert (Keep : forall st', st' = st -> st_vars st' x = Some (q, id) <-> st_vars st x = Some (q, id) /\ In id (map fst (st_inputs st'))).
  { intros st' ->. split; [|tauto]. intros Hs. split; [exact Hs|eapply rp_used; eauto]. }
  destruct c; try (apply Keep; reflexivity).
  - apply shrink_saved.
  - destruct (N1 name value id0); reflexivity.
  - destruct (N2 name id0); reflexivity.
  - destruct (N3 name); reflexivity.
  - cbn [spec_call]. destruct (Z.ltb_spec size 1); [apply Keep; reflexivity|]. apply shrink_saved.
Qed.

Lemma set_saves w i fault x q id w' : reachable w -> canon q -> step i fault (SetVariable x q id) w = (w', RDone) ->
  In id (ids_of (w_file w)) /\ inputs_of (w_file w') = inputs_of (w_file w) /\
  forall y v k, saved (w_file w') y v k <-> (y = x /\ v = q /\ k = id) \/ (y <> x /\ saved (w_file w) y v k).
Proof.
  intros H Hc E. assert (Ho : is_open w i).
  { intros C. rewrite step_closed in E by (auto; discriminate). discriminate E. }
  destruct (reachable_open w i H Ho) as [st R].
  destruct (step_cases _ _ _ _ _ _ _ R Ho E) as [[_ [[C _]|[C|C]]]|(_ & _ & _ & Er & R')]; try discriminate.
  { intros ? ? ? A. injection A as <- <- <-. exact Hc. }
  cbn [spec_call] in *. destruct (has_input (st_inputs st) id) eqn:Hi; [|discriminate Er].
  rewrite (rep_ids _ _ R), (rep_inputs _ _ R'), (rep_inputs _ _ R). split; [apply has_input_in, Hi|]. split; [reflexivity|].
  intros y v k. rewrite (rep_saved _ _ _ _ _ R), (rep_saved _ _ _ _ _ R'). cbn [fst st_vars]. rewrite set_var_some.
  split; intros [A|A]; auto; left; destruct A as [-> A]; [injection A as <- <-; auto|destruct A as [-> ->]; auto].
Qed.
Lemma touch_moves w i fault x id w' : reachable w -> step i fault (TouchVariable x id) w = (w', RDone) ->
  inputs_of (w_file w') = inputs_of (w_file w) /\
  forall y v k, saved (w_file w') y v k <-> (y = x /\ k = id /\ exists k0, saved (w_file w) x v k0) \/ (y <> x /\ saved (w_file w) y v k).
Proof.
  intros H E. assert (Ho : is_open w i).
  { intros C. rewrite step_closed in E by (auto; discriminate). discriminate E. }
  destruct (reachable_open w i H Ho) as [st R].
  destruct (step_cases _ _ _ _ _ _ _ R Ho E) as [[_ [[C _]|[C|C]]]|(_ & _ & _ & Er & R')]; try discriminate.
  rewrite (rep_inputs _ _ R'), (rep_inputs _ _ R). cbn [spec_call] in *.
  assert (S : forall y v k, saved (w_file w) y v k <-> st_vars st y = Some (v, k)) by (intros; apply rep_saved, R).
  destruct (st_vars st x) as [[q k0]|] eqn:Ex.
  - destruct (has_input (st_inputs st) id) eqn:Hi; [|discriminate Er]. split; [reflexivity|].
    intros y v k. rewrite (rep_saved _ _ _ _ _ R'), S. cbn [fst st_vars]. rewrite set_var_some. split; intros [A|A]; auto; left.
    + destruct A as [-> A]. injection A as <- <-. split; [reflexivity|]. split; [reflexivity|]. exists k0. apply S, Ex.
    + destruct A as (-> & -> & k1 & A). apply S in A. rewrite Ex in A. injection A as <- <-. auto.
  - split; [reflexivity|]. intros y v k. rewrite (rep_saved _ _ _ _ _ R'), S. cbn [fst]. split.
    + intros A. right. split; [congruence|exact A].
    + intros [(-> & -> & k1 & A)|[_ A]]; [|exact A]. apply S in A. congruence.
Qed.
Lemma clear_removes w i fault x w' : reachable w -> step i fault (ClearVariable x) w = (w', RDone) ->
  inputs_of (w_file w') = inputs_of (w_file w) /\
  forall y v k, saved (w_file w') y v k <-> y <> x /\ saved (w_file w) y v k.
Proof.
  intros H E. assert (Ho : is_open w i).
  { intros C. rewrite step_closed in E by (auto; discriminate). discriminate E. }
  destruct (reachable_open w i H Ho) as [st R].
  destruct (step_cases _ _ _ _ _ _ _ R Ho E) as [[_ [[C _]|[C|C]]]|(_ & _ & _ & Er & R')]; try discriminate.
  rewrite (rep_inputs _ _ R'), (rep_inputs _ _ R). split; [reflexivity|]. intros y v k.
  rewrite (rep_saved _ _ _ _ _ R), (rep_saved _ _ _ _ _ R'). cbn [spec_call fst st_vars]. rewrite set_var_some.
  split; [intros [[_ A]|A]; [discriminate A|exact A]|auto].
Qed.
Lemma get_reads w i x w' r : reachable w -> is_open w i -> step i false (GetVariable x) w = (w', r) ->
  w_file w' = w_file w /\
  ((exists q id, saved (w_file w) x q id /\ r = RValue (Some q)) \/ ((forall q id, ~ saved (w_file w) x q id) /\ r = RValue None)).
Proof.
  intros H Ho E. destruct (reachable_open w i H Ho) as [st R]. destruct (w_pos w i) as [pos|] eqn:Ep; [|destruct (Ho Ep)].
  pose proof E as E0. rewrite (step_call _ _ _ _ Ep) in E0 by discriminate. cbv zeta in E0. apply pair_equal_spec in E0 as [<- E0].
  assert (Ef : fst (tx_reply (tx_of (GetVariable x) (w_file w)) (w_file w)) = w_file w).
  { cbn [tx_of]. destruct (tx_get_variable_ok (w_file w) x (rep_rows_ok _ _ R)) as [(v & G & _)|[G _]]; rewrite (tx_bind_ok _ _ _ _ _ G); reflexivity. }
  split; [exact Ef|].
  destruct (step_cases _ _ _ _ _ _ _ R Ho E) as [[_ [[_ C]|[C|C]]]|(_ & _ & _ & Er & _)]; try discriminate.
  cbn [spec_call snd] in Er. destruct (st_vars st x) as [[q id]|] eqn:Ex.
  - left. exists q, id. split; [apply (rep_saved _ _ _ _ _ R), Ex|exact Er].
  - right. split; [|exact Er]. intros q id C. apply (rep_saved _ _ _ _ _ R) in C. congruence.
Qed.

(** *** C34 *)
Lemma reply_dec (r : reply) : (exists e, r = RError e) \/ (exists p, r = RCrash p) \/ (forall e, r <> RError e) /\ (forall p, r <> RCrash p).
Proof. destruct r; eauto; right; right; split; discriminate. Qed.
Lemma var_call_reply w i fault c w' r : step i fault c w = (w', r) ->
  (exists x q id, c = SetVariable x q id) \/ (exists x id, c = TouchVariable x id) \/ (exists x, c = ClearVariable x) ->
  r = RDone \/ (w_file w' = w_file w).
Proof.
  intros E Hc. destruct (reply_dec r) as [Hr|[Hr|[N1 N2]]].
  - right. eapply failures_change_nothing; eauto.
  - right. eapply failures_change_nothing; eauto.
  - assert (A : r = RDone \/ r = RClosed /\ w' = w).
    { destruct Hc as [(x & q & id & ->)|[(x & id & ->)|(x & ->)]]; unfold step in E; destruct (w_pos w i) as [pos|];
        try (apply pair_equal_spec in E as [<- <-]; auto; fail); unfold after in E; apply pair_equal_spec in E as [<- <-];
        match goal with |- context [reply_of _ ?o] => destruct o as [u|e|p] end; cbn [reply_of] in *; auto;
        try (destruct (N1 e); reflexivity); destruct (N2 p); reflexivity. }
    destruct A as [A|[_ ->]]; auto.
Qed.
Lemma step_value_kept w i fault c x q : reachable w -> (forall y v id, c = SetVariable y v id -> canon v) ->
  (forall v id, c <> SetVariable x v id) ->
  (forall v id, saved (w_file w) x v id -> v = q) ->
  forall v id, saved (w_file (fst (step i fault c w))) x v id -> v = q.
Proof.
  intros H Hc N Hq. destruct (step i fault c w) as [w' r] eqn:E. cbn [fst]. intros v id Hs.
  assert (D : (forall x q id, c <> SetVariable x q id) /\ (forall x id, c <> TouchVariable x id) /\ (forall x, c <> ClearVariable x) \/
     ((exists x q id, c = SetVariable x q id) \/ (exists x id, c = TouchVariable x id) \/ (exists x, c = ClearVariable x))).
  { destruct c; try (left; repeat split; discriminate); right; eauto 6. }
  destruct D as [(N1 & N2 & N3)|D].
  - apply (eviction_only w i fault c w' r H E N1 N2 N3) in Hs as [Hs _]. eauto.
  - destruct (var_call_reply _ _ _ _ _ _ E D) as [->|Ef]; [|rewrite Ef in Hs; eauto].
    destruct D as [(y & p & k & ->)|[(y & k & ->)|(y & ->)]].
    + apply (set_saves w i fault y p k w' H) in E as (_ & _ & E); [|eapply Hc; reflexivity].
      apply E in Hs as [(-> & _)|[_ Hs]]; [|eauto]. destruct (N p k); reflexivity.
    + apply (touch_moves w i fault y k w' H) in E as (_ & E). apply E in Hs as [(-> & _ & k0 & Hs)|[_ Hs]]; eauto.
    + apply (clear_removes w i fault y w' H) in E as (_ & E). apply E in Hs as [_ Hs]. eauto.
Qed.
Lemma run_value_kept x q sch : forall w, reachable w -> lowest_terms sch ->
  (forall i fault v id, ~ In (i, fault, SetVariable x v id) sch) ->
  (forall v id, saved (w_file w) x v id -> v = q) ->
  forall v id, saved (w_file (fst (run sch w))) x v id -> v = q.
Proof.
  induction sch as [|[[i f] c] sch IH]; intros w H Hq Hx Hw; [exact Hw|].
  assert (Hc : forall y v id, c = SetVariable y v id -> canon v) by (intros y v id ->; apply (Hq i f y v id); left; reflexivity).
  cbn [run]. destruct (step i f c w) as [w1 r] eqn:E. specialize (IH w1). destruct (run sch w1) as [w2 rs]. cbn [fst] in *.
  apply IH.
  - pose proof (reachable_step w i f c H Hc) as P. rewrite E in P. exact P.
  - intros j g y v id Hj. apply (Hq j g y v id). right. exact Hj.
  - intros j g v id Hj. apply (Hx j g v id). right. exact Hj.
  - pose proof (step_value_kept w i f c x q H Hc) as K. rewrite E in K. cbn [fst] in K. apply K; [|exact Hw].
    intros v id ->. apply (Hx i f v id). left. reflexivity.
Qed.

(** *** C63 *)
Lemma evicted_fails w i x q id w' r : reachable w -> is_open w i -> canon q -> ~ In id (ids_of (w_file w)) ->
  step i false (SetVariable x q id) w = (w', r) -> r = RError SqliteConstraint /\ w_file w' = w_file w.
Proof.
  intros H Ho Hc Hn E. destruct (reachable_open w i H Ho) as [st R].
  assert (Hq : forall y v k, SetVariable x q id = SetVariable y v k -> canon v) by (intros ? ? ? A; injection A as <- <- <-; exact Hc).
  destruct (step_cases _ _ _ _ _ _ _ R Ho E Hq) as [[_ [[_ C]|[C|C]]]|(_ & _ & _ & -> & _)]; try discriminate.
  cbn [spec_call] in *. rewrite (rep_ids _ _ R), <- has_input_in in Hn. destruct (has_input (st_inputs st) id) eqn:Hi; [destruct Hn; reflexivity|].
  cbn [snd] in *. split; [reflexivity|]. eapply failures_change_nothing; eauto.
Qed.
Lemma present_saves w i x q id : reachable w -> is_open w i -> canon q -> In id (ids_of (w_file w)) ->
  snd (step i false (SetVariable x q id) w) = RDone.
Proof.
  intros H Ho Hc Hn. destruct (step i false (SetVariable x q id) w) as [w' r] eqn:E. destruct (reachable_open w i H Ho) as [st R].
  assert (Hq : forall y v k, SetVariable x q id = SetVariable y v k -> canon v) by (intros ? ? ? A; injection A as <- <- <-; exact Hc).
  destruct (step_cases _ _ _ _ _ _ _ R Ho E Hq) as [[_ [[_ C]|[C|C]]]|(_ & _ & _ & -> & _)]; try discriminate.
  cbn [spec_call snd]. rewrite (rep_ids _ _ R), <- has_input_in in Hn. rewrite Hn. reflexivity.
Qed.
