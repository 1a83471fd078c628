(** ProofsDb4.v -- consequences of the refinement. *)
From Verif Require Import Base Position Num TokenTypes Errors SavedData Sessions SpecEval SpecHistory ProofsLex ProofsText ProofsNum ProofsEval ProofsDb ProofsDb2 ProofsDb3.
From Coq Require Import String Sorted.
Local Open Scope nat_scope.
Local Open Scope list_scope.

Lemma reachable_corresponds w : reachable w -> exists sw, corresponds w sw.
Proof. intros (sch & Hq & ->). destruct (run_refines sch _ _ fresh_corresponds Hq) as (sw & _ & H). eauto. Qed.
Lemma reachable_file w : reachable w -> (w_file w = empty_db /\ forall i, ~ is_open w i) \/ exists st, represents (w_file w) st.
Proof.
  intros H. destruct (reachable_corresponds w H) as ([[st|] l] & C); cbn in C.
  - right. exists st. apply C.
  - left. destruct C as (A & B & _). split; [exact A|]. intros i Hi. apply Hi, B.
Qed.
Lemma reachable_open w i : reachable w -> is_open w i -> exists st, represents (w_file w) st.
Proof. intros H Hi. destruct (reachable_file w H) as [[_ N]|R]; [destruct (N i Hi)|exact R]. Qed.

Lemma inputs_of_link p l : map (fun r => (h_id r, h_input r)) (link p l) = l.
Proof. revert p. induction l as [|[i t] l IH]; intros p; [reflexivity|]. cbn. rewrite IH. reflexivity. Qed.
Lemma rep_inputs d st : represents d st -> inputs_of d = st_inputs st.
Proof. intros H. unfold inputs_of. rewrite (rp_hist _ _ H). apply inputs_of_link. Qed.
Lemma rep_ids d st : represents d st -> ids_of d = map fst (st_inputs st).
Proof. intros H. unfold ids_of. rewrite (rep_inputs _ _ H). reflexivity. Qed.
Lemma rep_saved d st x q id : represents d st -> (saved d x q id <-> st_vars st x = Some (q, id)).
Proof.
  intros H. destruct (rp_vars _ _ H) as (_ & _ & C). rewrite C. unfold saved, row_holds.
  split; intros (r & Hr); exists r; tauto.
Qed.

(** *** C38 *)
Lemma nth_link p l : forall k r, nth_error (link p l) k = Some r ->
  h_next r = option_map h_id (nth_error (link p l) (S k)) /\
  h_prev r = match k with O => p | S j => option_map h_id (nth_error (link p l) j) end.
Proof.
  revert p. induction l as [|[i t] l IH]; intros p k r; [destruct k; discriminate|].
  destruct k as [|k].
  - cbn [link nth_error]. intros E. injection E as <-. cbn [h_next h_prev]. split; [|reflexivity].
    destruct l as [|[j u] l]; reflexivity.
  - intros E. change (nth_error (link (Some i) l) k = Some r) in E. destruct (IH (Some i) k r E) as [A B].
    split; [exact A|]. destruct k as [|k]; exact B.
Qed.
Lemma nth_link_incr p l : incr l -> forall k r r', nth_error (link p l) k = Some r -> nth_error (link p l) (S k) = Some r' ->
  (h_id r < h_id r')%Z.
Proof.
  revert p. induction l as [|[i t] l IH]; intros p H k r r'; [destruct k; discriminate|]. apply incr_cons in H as [Hi Hf].
  destruct k as [|k].
  - cbn [link nth_error]. intros E E'. injection E as <-. destruct l as [|[j u] l]; [discriminate E'|]. injection E' as <-.
    inversion Hf. assumption.
  - intros E E'. exact (IH (Some i) Hi k r r' E E').
Qed.
Lemma hd_map {A B} (f : A -> B) l : hd_error (map f l) = option_map f (hd_error l).
Proof. destruct l; reflexivity. Qed.
Lemma link_hd p l : option_map h_id (hd_error (link p l)) = head_id l.
Proof. destruct l as [|[i t] l]; reflexivity. Qed.
Lemma link_last p l : option_map h_id (hd_error (rev (link p l))) = last_id l.
Proof. unfold last_id. rewrite <- !hd_map, !map_rev, link_ids. reflexivity. Qed.
Lemma rep_well_formed d st : represents d st -> well_formed d.
Proof.
  intros H. exists (link None (st_inputs st)). rewrite (rp_hist _ _ H), (rp_tags _ _ H), link_hd, link_last.
  split; [reflexivity|]. split; [rewrite link_ids; apply incr_nodup, H|]. split.
  { intros k r Hr. destruct (nth_link _ _ _ _ Hr) as [A B]. split; [exact A|]. split; [exact B|].
    intros r' Hr'. eapply nth_link_incr; [apply H|exact Hr|exact Hr']. }
  split; [reflexivity|]. split; [reflexivity|]. destruct (rp_vars _ _ H) as (Nn & B & C). split; [|exact Nn].
  intros v Hv. destruct (B v Hv) as [q Hq]. assert (E : st_vars st (v_name v) = Some (q, v_used v)) by (apply C; eauto).
  apply (rp_used _ _ H) in E. rewrite <- (link_ids None) in E. apply in_map_iff in E as (r & A & E). exists r. auto.
Qed.
Lemma always_well_formed w : reachable w -> w_file w = empty_db \/ well_formed (w_file w).
Proof. intros H. destruct (reachable_file w H) as [[E _]|[st R]]; [left; exact E|right; eapply rep_well_formed; eauto]. Qed.

(** *** C39 *)
Lemma always_bounded w : reachable w -> w_file w = empty_db \/
  exists cap, capacity (w_file w) cap /\ (1 <= cap)%Z /\ (Z.of_nat (List.length (inputs_of (w_file w))) <= cap)%Z.
Proof.
  intros H. destruct (reachable_file w H) as [[E _]|[st R]]; [left; exact E|right]. exists (st_cap st).
  rewrite (rep_inputs _ _ R). split; [apply R|]. split; apply R.
Qed.

(** *** single calls *)
Lemma step_cases i fault c w w' r st : represents (w_file w) st -> is_open w i -> step i fault c w = (w', r) ->
  (forall x q id, c = SetVariable x q id -> canon q) ->
  (w_file w' = w_file w /\ (r = RError SqliteError /\ fault = true \/ c = Open \/ c = PrevInput)) \/
  (fault = false /\ c <> Open /\ c <> PrevInput /\ r = snd (spec_call c st) /\ represents (w_file w') (fst (spec_call c st))).
Proof.
  intros R Ho E Hq. destruct (w_pos w i) as [pos|] eqn:Ep; [|destruct (Ho Ep)].
  destruct (call_cases c) as [->|[->|[H1 H2]]].
  - left. unfold step, sd_open, sd_call in E. cbn [sd_faults sd_db sd_pos] in E. destruct fault.
    + injection E as <- <-. auto.
    + rewrite (open_rep _ _ R) in E. injection E as <- <-. auto.
  - left. destruct pos as [id|].
    + destruct fault.
      * rewrite (step_fault _ _ _ _ Ep) in E by (auto; discriminate). injection E as <- <-. auto.
      * rewrite (step_prev _ _ _ Ep) in E. destruct (find_hist _ _); injection E as <- <-; auto.
    + rewrite (step_prev_none _ _ _ Ep) in E. injection E as <- <-. auto.
  - destruct fault.
    + left. rewrite (step_fault _ _ _ _ Ep) in E by (auto; congruence). injection E as <- <-. auto.
    + right. rewrite (step_call _ _ _ _ Ep H1 H2) in E. cbv zeta in E. destruct (call_spec c _ _ R Hq H1 H2) as [A B].
      apply pair_equal_spec in E as [<- <-]. cbn [w_file]. auto.
Qed.

(** *** C40 *)
Lemma add_fifo w i text w' r : reachable w -> is_open w i -> step i false (AddInput text) w = (w', r) ->
  exists cap id, capacity (w_file w) cap /\ capacity (w_file w') cap /\ r = RId id /\
    inputs_of (w_file w') = newest cap (inputs_of (w_file w) ++ [(id, text)]).
Proof.
  intros H Ho E. destruct (reachable_open w i H Ho) as [st R].
  destruct (step_cases _ _ _ _ _ _ _ R Ho E) as [[_ [[_ C]|[C|C]]]|(_ & _ & _ & -> & R')]; try discriminate.
  exists (st_cap st), (next_id (st_inputs st)). rewrite (rep_inputs _ _ R), (rep_inputs _ _ R').
  split; [apply R|]. split; [apply R'|]. split; reflexivity.
Qed.
Lemma setmax_fifo w i n w' r : reachable w -> is_open w i -> (1 <= n)%Z -> step i false (SetMax n) w = (w', r) ->
  r = RDone /\ capacity (w_file w') n /\ inputs_of (w_file w') = newest n (inputs_of (w_file w)).
Proof.
  intros H Ho Hn E. destruct (reachable_open w i H Ho) as [st R].
  destruct (step_cases _ _ _ _ _ _ _ R Ho E) as [[_ [[_ C]|[C|C]]]|(_ & _ & _ & -> & R')]; try discriminate.
  cbn [spec_call] in *. destruct (Z.ltb_spec n 1); [lia|]. rewrite (rep_inputs _ _ R), (rep_inputs _ _ R').
  split; [reflexivity|]. split; [apply R'|reflexivity].
Qed.
Lemma others_keep_history w i fault c w' r : reachable w -> is_open w i -> step i fault c w = (w', r) ->
  (forall x q id, c = SetVariable x q id -> canon q) ->
  (forall text, c <> AddInput text) -> (forall n, c <> SetMax n) ->
  inputs_of (w_file w') = inputs_of (w_file w) /\ forall n, capacity (w_file w) n <-> capacity (w_file w') n.
Proof.
  intros H Ho E Hq N1 N2. destruct (reachable_open w i H Ho) as [st R].
  destruct (step_cases _ _ _ _ _ _ _ R Ho E Hq) as [[E1 _]|(_ & _ & _ & -> & R')].
  - rewrite E1. split; reflexivity.
  - rewrite (rep_inputs _ _ R), (rep_inputs _ _ R'). unfold capacity. rewrite (rp_cap _ _ R), (rp_cap _ _ R').
    assert (X : st_inputs (fst (spec_call c st)) = st_inputs st /\ st_cap (fst (spec_call c st)) = st_cap st).
    { destruct c; cbn [spec_call]; auto.
      - destruct (N1 text); reflexivity.
      - destruct (has_input _ _); auto.
      - destruct (st_vars st name) as [[q k]|]; [|auto]. destruct (has_input _ _); auto.
      - destruct (N2 size); reflexivity. }
    destruct X as [-> ->]. split; [reflexivity|]. reflexivity.
Qed.

(** *** C41 *)
Lemma next_id_newest n l : (1 <= n)%Z -> next_id (newest n l) = next_id l.
Proof.
  intros Hn. destruct l as [|e l].
  - unfold newest. rewrite skipn_nil. reflexivity.
  - destruct (newest_suffix n (e :: l)) as [pre E]. rewrite E at 2. unfold next_id. rewrite rev_app_distr.
    pose proof (newest_nonnil n (e :: l) Hn ltac:(discriminate)) as N.
    destruct (rev (newest n (e :: l))) as [|y r] eqn:Er; [|reflexivity].
    exfalso. apply N. rewrite <- (rev_involutive (newest n (e :: l))), Er. reflexivity.
Qed.
Definition floor (sw : sworld) : Z := match sw_store sw with None => 1%Z | Some st => next_id (st_inputs st) end.
Definition cap_ok (sw : sworld) : Prop := match sw_store sw with None => True | Some st => (1 <= st_cap st)%Z end.
Lemma next_id_snoc l i t : next_id (l ++ [(i, t)]) = (i + 1)%Z.
Proof. unfold next_id. rewrite rev_app_distr. reflexivity. Qed.
Lemma sstep_floor i fault c sw sw' r : sstep i fault c sw sw' r -> cap_ok sw -> cap_ok sw' /\
  match r with RId id => id = floor sw /\ floor sw' = (id + 1)%Z | _ => floor sw' = floor sw end.
Proof.
  intros S Hc. destruct S; try (split; [exact Hc|reflexivity]).
  - split; [cbn; lia|reflexivity].
  - cbn [cap_ok sw_store] in *. destruct c; try congruence; cbn [spec_call fst snd]; try (split; [exact Hc|reflexivity]).
    + split; [exact Hc|]. split; [reflexivity|]. unfold floor. cbn [sw_store shrink st_inputs]. rewrite next_id_newest by exact Hc. apply next_id_snoc.
    + destruct (has_input _ _); split; try exact Hc; reflexivity.
    + destruct (st_vars st name) as [[q k]|]; [|split; [exact Hc|reflexivity]]. destruct (has_input _ _); split; try exact Hc; reflexivity.
    + destruct (Z.ltb_spec size 1); [split; [exact Hc|reflexivity]|]. cbn [shrink fst snd st_cap]. split; [lia|].
      unfold floor. cbn [sw_store shrink st_inputs]. apply next_id_newest; lia.
Qed.
Lemma srun_ids sch sw sw' rs : srun sch sw sw' rs -> cap_ok sw ->
  StronglySorted Z.lt (ids_given rs) /\ Forall (fun id => (floor sw <= id)%Z) (ids_given rs).
Proof.
  induction 1 as [w|i fault c rest w w1 w2 r rs S _ IH]; intros Hc; [split; constructor|].
  destruct (sstep_floor _ _ _ _ _ _ S Hc) as [Hc1 Hr]. destruct (IH Hc1) as [A B].
  unfold ids_given in *. cbn [map List.concat]. set (l := List.concat _) in *.
  destruct r; cbn [app]; try (rewrite <- Hr; split; assumption).
  destruct Hr as [-> Hr]. rewrite Hr in B. split; (constructor; [try exact A; try lia|]);
    (eapply Forall_impl; [|exact B]; cbn; intros; lia).
Qed.
Lemma ids_never_reused sch : lowest_terms sch -> StronglySorted Z.lt (ids_given (snd (run sch fresh))).
Proof.
  intros Hq. destruct (run_refines sch _ _ fresh_corresponds Hq) as (sw & S & _). apply (srun_ids _ _ _ _ S). exact I.
Qed.

(** *** C42 *)
Lemma set_left_same f i l : set_left f i l i = Some l.
Proof. unfold set_left. rewrite Nat.eqb_refl. reflexivity. Qed.
Lemma set_left_other f i l j : j <> i -> set_left f i l j = f j.
Proof. intros H. unfold set_left. destruct (Nat.eqb_spec j i); congruence. Qed.
Lemma srun_fetched i sch sw sw' rs : srun sch sw sw' rs -> forall L, sw_left sw i = Some L -> does_not_open i sch ->
  exists k, fetched i sch rs = map snd (firstn k L) /\ k = List.length (fetched i sch rs) /\ sw_left sw' i = Some (skipn k L).
Proof.
  induction 1 as [w|j fault c rest w w1 w2 r rs S _ IH]; intros L HL Hno; [exists 0; auto|].
  assert (Hno' : does_not_open i rest) by (intros f Hf; apply (Hno f); right; exact Hf).
  assert (Same : sw_left w1 i = Some L -> (fetched i ((j, fault, c) :: rest) (r :: rs) = fetched i rest rs) ->
    exists k, fetched i ((j, fault, c) :: rest) (r :: rs) = map snd (firstn k L) /\ k = List.length (fetched i ((j, fault, c) :: rest) (r :: rs)) /\ sw_left w2 i = Some (skipn k L)).
  { intros H1 ->. apply IH; auto. }
  destruct S.
  - apply Same; [exact HL|]. unfold fetched. cbn. destruct c; reflexivity.
  - apply Same; [exact HL|]. unfold fetched. cbn. destruct c; reflexivity.
  - apply Same; [|reflexivity]. cbn [sw_left] in *. rewrite set_left_other; [exact HL|]. intros ->. apply (Hno fault). left. reflexivity.
  - apply Same; [|reflexivity]. cbn [sw_left] in *. rewrite set_left_other; [exact HL|]. intros ->. apply (Hno fault). left. reflexivity.
  - cbn [sw_left] in *. destruct (Nat.eqb_spec j i) as [->|Hji].
    + rewrite HL in H0. injection H0 as ->. destruct (IH rest0) as (k & A & B & C); [apply set_left_same|exact Hno'|].
      exists (S k). unfold fetched in *. cbn [combine map List.concat]. rewrite Nat.eqb_refl. cbn [app firstn map snd skipn List.length].
      split; [f_equal; exact A|]. split; [f_equal; exact B|exact C].
    + apply Same; [rewrite set_left_other by congruence; exact HL|]. unfold fetched. cbn [combine map List.concat].
      destruct (Nat.eqb_spec j i); [congruence|]. reflexivity.
  - apply Same; [exact HL|reflexivity].
  - apply Same; [exact HL|]. unfold fetched. cbn. destruct c; congruence || reflexivity.
Qed.

Lemma run_app a : forall b w, run (a ++ b) w =
  (fst (run b (fst (run a w))), snd (run a w) ++ snd (run b (fst (run a w)))).
Proof.
  induction a as [|[[i f] c] a IH]; intros b w; cbn [app run].
  - cbn [fst snd]. destruct (run b w); reflexivity.
  - destruct (step i f c w) as [w1 r]. rewrite IH. destruct (run a w1) as [w2 rs]. cbn [fst snd app]. reflexivity.
Qed.
Lemma reachable_run w sch : reachable w -> lowest_terms sch -> reachable (fst (run sch w)).
Proof.
  intros (s & Hs & ->) Hq. exists (s ++ sch). split.
  - intros i f x q id Hin. apply in_app_iff in Hin as [Hin|Hin]; eauto.
  - rewrite run_app. reflexivity.
Qed.
Lemma reachable_step w i fault c : reachable w -> (forall x q id, c = SetVariable x q id -> canon q) -> reachable (fst (step i fault c w)).
Proof.
  intros H Hq. replace (fst (step i fault c w)) with (fst (run [(i, fault, c)] w)).
  - apply reachable_run; [exact H|]. intros j f x q id [E|[]]. injection E as <- <- ->. eapply Hq; reflexivity.
  - cbn [run]. destruct (step i fault c w); reflexivity.
Qed.

Lemma open_world w i w1 : reachable w -> step i false Open w = (w1, RDone) ->
  inputs_of (w_file w1) = inputs_of (w_file w) /\ exists sw1, corresponds w1 sw1 /\ sw_left sw1 i = Some (rev (inputs_of (w_file w1))).
Proof.
  intros H E. destruct (reachable_corresponds w H) as (sw & C).
  unfold step, sd_open, sd_call in E. cbn [sd_faults sd_db sd_pos] in E.
  destruct sw as [[st|] l]; cbn in C.
  - destruct C as [R Hl]. rewrite (open_rep _ _ R) in E. injection E as <-. cbn [w_file]. split; [reflexivity|].
    exists (mkSWorld (Some st) (set_left l i (rev (st_inputs st)))). split.
    + cbn. split; [exact R|]. intros j. unfold set_pos, set_left. destruct (Nat.eqb j i); [|apply Hl]. apply cursor_open, R.
    + cbn. rewrite set_left_same, (rep_inputs _ _ R). reflexivity.
  - destruct C as (Hf & Hp & Hl). rewrite Hf in *. rewrite open_empty in E. injection E as <-. cbn [w_file]. split; [reflexivity|].
    exists (mkSWorld (Some first_store) (set_left l i [])). split.
    + cbn. split; [apply created_rep|]. intros j. unfold set_pos, set_left. destruct (Nat.eqb j i); [|rewrite Hp, Hl; exact I].
      apply (cursor_open []). constructor.
    + cbn. rewrite set_left_same. reflexivity.
Qed.

Lemma scrollback w i w1 sch : reachable w -> step i false Open w = (w1, RDone) -> lowest_terms sch -> does_not_open i sch ->
  let got := fetched i sch (snd (run sch w1)) in
  let stored := rev (inputs_of (w_file w)) in
  got = map snd (firstn (List.length got) stored) /\ forall fault, snd (step i fault PrevInput (fst (run sch w1))) = RInput None ->
    forall e, In e (skipn (List.length got) stored) -> ~ In (fst e) (ids_of (w_file (fst (run sch w1)))).
Proof.
  intros H E Hq Hno. destruct (open_world w i w1 H E) as (Ei & sw1 & C1 & L1). rewrite <- Ei. cbv zeta.
  destruct (run_refines sch _ _ C1 Hq) as (sw2 & S2 & C2).
  destruct (srun_fetched i _ _ _ _ S2 _ L1 Hno) as (k & A & B & C). rewrite <- B. split; [exact A|].
  intros fault Er. destruct (step_refines i fault PrevInput _ _ C2) as (sw3 & S3 & _); [discriminate|].
  rewrite Er in S3. destruct sw2 as [so l2]. cbn [sw_left] in C. clear Er. inversion S3 as [| | | | |st l lf El Hout|c0 st l Hf Hn H1 H2]; subst.
  - cbn [corresponds sw_store] in C2. destruct C2 as [R _]. rewrite (rep_ids _ _ R). rewrite C in El. injection El as <-. exact Hout.
Qed.

(** *** C43 *)
Lemma sd_call_fail {A} (m : tx A) sd sd' o : sd_call m sd = (sd', o) -> (forall a, o <> Ok a) ->
  sd_db sd' = sd_db sd /\ sd_pos sd' = sd_pos sd.
Proof.
  unfold sd_call. intros E N. destruct (sd_faults sd) as [|[|] fs].
  - destruct (m (sd_db sd)) as [[a d]|e|p]; apply pair_equal_spec in E as [<- <-]; auto. destruct (N a); reflexivity.
  - apply pair_equal_spec in E as [<- <-]. auto.
  - destruct (m (sd_db sd)) as [[a d]|e|p]; apply pair_equal_spec in E as [<- <-]; auto. destruct (N a); reflexivity.
Qed.
Lemma after_fail {A} w i pos (f : A -> reply) (m : tx A) b w' r :
  after w i f (sd_call m (mkSD (w_file w) pos b)) = (w', r) -> w_pos w i = Some pos ->
  (exists e, r = RError e) \/ (exists p, r = RCrash p) -> (forall a, (forall e, f a <> RError e) /\ forall p, f a <> RCrash p) ->
  w_file w' = w_file w /\ forall j, w_pos w' j = w_pos w j.
Proof.
  intros E Hp Hr Hf. unfold after in E. destruct (sd_call m _) as [sd' o] eqn:Es. cbn [fst snd] in E.
  apply pair_equal_spec in E as [<- <-]. cbn [w_file w_pos].
  assert (N : forall a, o <> Ok a).
  { intros a ->. cbn [reply_of] in Hr. destruct (Hf a) as [H1 H2]. destruct Hr as [[e Hr]|[p Hr]]; [destruct (H1 e Hr)|destruct (H2 p Hr)]. }
  destruct (sd_call_fail _ _ _ _ Es N) as [-> ->]. cbn [sd_db sd_pos]. split; [reflexivity|].
  intros j. apply set_pos_same, Hp.
Qed.
Lemma failures_change_nothing i fault c w w' r : step i fault c w = (w', r) ->
  (exists e, r = RError e) \/ (exists p, r = RCrash p) ->
  w_file w' = w_file w /\ forall j, w_pos w' j = w_pos w j.
Proof.
  intros E Hr. destruct c; unfold step in E;
    [|destruct (w_pos w i) as [pos|] eqn:Ep; [|apply pair_equal_spec in E as [<- <-]; auto]..];
    try (eapply after_fail; [exact E|exact Ep|exact Hr|]; intros ?; split; intros; discriminate).
  - unfold sd_open in E. destruct (sd_call tx_open _) as [sd o] eqn:Es. destruct o as [fr|e|p].
    + apply pair_equal_spec in E as [<- <-]. destruct Hr as [[e Hr]|[p Hr]]; discriminate.
    + apply pair_equal_spec in E as [<- <-]. destruct (sd_call_fail _ _ _ _ Es) as [-> _]; [discriminate|]. auto.
    + apply pair_equal_spec in E as [<- <-]. destruct (sd_call_fail _ _ _ _ Es) as [-> _]; [discriminate|]. auto.
  - unfold get_prev_input_history in E. cbn [sd_pos] in E. destruct pos as [id|].
    + destruct (sd_call _ _) as [sd o] eqn:Es. destruct o as [[row|]|e|p]; unfold after in E; cbn [fst snd sd_db sd_pos reply_of] in E; apply pair_equal_spec in E as [<- <-].
      * destruct Hr as [[e Hr]|[p Hr]]; discriminate.
      * destruct Hr as [[e Hr]|[p Hr]]; discriminate.
      * destruct (sd_call_fail _ _ _ _ Es) as [-> ->]; [discriminate|]. cbn [w_file w_pos sd_db sd_pos]. split; [reflexivity|]. intros j. apply set_pos_same, Ep.
      * destruct (sd_call_fail _ _ _ _ Es) as [-> ->]; [discriminate|]. cbn [w_file w_pos sd_db sd_pos]. split; [reflexivity|]. intros j. apply set_pos_same, Ep.
    + unfold after in E. cbn [fst snd sd_db sd_pos reply_of] in E. apply pair_equal_spec in E as [<- <-]. destruct Hr as [[e Hr]|[p Hr]]; discriminate.
Qed.

(** *** C44 *)
Lemma expected_failures w i fault c w' r : reachable w -> step i fault c w = (w', r) ->
  (forall x q id, c = SetVariable x q id -> canon q) ->
  (forall p, r <> RCrash p) /\
  forall e, r = RError e ->
    (fault = true /\ e = SqliteError) \/
    (e = SqliteConstraint /\ exists x id, ((exists q, c = SetVariable x q id) \/ c = TouchVariable x id) /\ ~ In id (ids_of (w_file w))) \/
    (exists n, c = SetMax n /\ (n < 1)%Z).
Proof.
  intros H E Hq. destruct (reachable_corresponds w H) as (sw & C).
  destruct (step_refines i fault c w sw C Hq) as (sw' & S & _). rewrite E in S. cbn [snd] in S.
  destruct S; try (split; [discriminate|]; intros e Ee; try discriminate Ee).
  - injection Ee as <-. left. auto.
  - cbn [corresponds sw_store] in C. destruct C as [R _].
    destruct c; try congruence; cbn [spec_call snd];
      try (split; [discriminate|]; intros e Ee; try discriminate Ee).
    + destruct (has_input (st_inputs st) id) eqn:Hi; cbn [snd]; split; try discriminate. intros e Ee. injection Ee as <-.
      right; left. split; [reflexivity|]. exists name, id. split; [left; eauto|]. rewrite (rep_ids _ _ R), <- has_input_in, Hi. discriminate.
    + destruct (st_vars st name) as [[q k]|]; [|split; discriminate].
      destruct (has_input (st_inputs st) id) eqn:Hi; cbn [snd]; split; try discriminate. intros e Ee. injection Ee as <-.
      right; left. split; [reflexivity|]. exists name, id. split; [auto|]. rewrite (rep_ids _ _ R), <- has_input_in, Hi. discriminate.
    + destruct (Z.ltb_spec size 1); cbn [snd]; split; try discriminate. intros e _. right; right. eauto.
Qed.

(** *** C45 *)
Lemma meta_ignore k v d : exists d', sql_meta_insert_ignore k v d = Ok (tt, d') /\ d_hist d' = d_hist d /\ d_tags d' = d_tags d /\ d_vars d' = d_vars d /\
  (forall k' z, zassoc k' (d_meta d) = Some z -> zassoc k' (d_meta d') = Some z) /\
  zassoc k (d_meta d') = Some (match zassoc k (d_meta d) with Some z => z | None => v end).
Proof.
  unfold sql_meta_insert_ignore. destruct (zassoc k (d_meta d)) as [z|] eqn:E.
  - exists d. repeat split; auto.
  - exists (set_meta d (d_meta d ++ [(k, v)])). cbn [set_meta d_hist d_tags d_vars d_meta]. repeat split; auto.
    + intros k' z Hz. induction (d_meta d) as [|[k1 v1] m IH]; [discriminate Hz|]. cbn [app zassoc] in *. destruct (Z.eqb k' k1); [exact Hz|].
      apply IH; [|exact Hz]. destruct (Z.eqb k k1); [discriminate E|exact E].
    + induction (d_meta d) as [|[k1 v1] m IH]; cbn [app zassoc] in *; [rewrite Z.eqb_refl; reflexivity|].
      destruct (Z.eqb k k1); [discriminate E|auto].
Qed.
Lemma tag_ignore k d : exists d', sql_tag_insert_ignore k d = Ok (tt, d') /\ d_hist d' = d_hist d /\ d_meta d' = d_meta d /\ d_vars d' = d_vars d /\
  (forall k' z, zassoc k' (d_tags d) = Some z -> zassoc k' (d_tags d') = Some z) /\
  zassoc k (d_tags d') = Some (match zassoc k (d_tags d) with Some z => z | None => None end).
Proof.
  unfold sql_tag_insert_ignore. destruct (zassoc k (d_tags d)) as [z|] eqn:E.
  - exists d. repeat split; auto.
  - exists (set_tags d (d_tags d ++ [(k, None)])). cbn [set_tags d_hist d_tags d_vars d_meta]. repeat split; auto.
    + intros k' z Hz. induction (d_tags d) as [|[k1 v1] m IH]; [discriminate Hz|]. cbn [app zassoc] in *. destruct (Z.eqb k' k1); [exact Hz|].
      apply IH; [|exact Hz]. destruct (Z.eqb k k1); [discriminate E|exact E].
    + induction (d_tags d) as [|[k1 v1] m IH]; cbn [app zassoc] in *; [rewrite Z.eqb_refl; reflexivity|].
      destruct (Z.eqb k k1); [discriminate E|auto].
Qed.
Definition min_version (d : database) : Z := match zassoc meta_MinimumVersion (d_meta d) with Some v => v | None => 1%Z end.
Lemma open_general d : (min_version d <= 1)%Z -> exists front d',
  tx_open d = Ok (front, d') /\ d_hist d' = d_hist d /\ d_vars d' = d_vars d /\
  (forall k z, zassoc k (d_meta d) = Some z -> zassoc k (d_meta d') = Some z) /\
  (forall k z, zassoc k (d_tags d) = Some z -> zassoc k (d_tags d') = Some z) /\
  tx_open d' = Ok (front, d').
Proof.
  intros Hv. unfold min_version in Hv. unfold tx_open at 1.
  destruct (meta_ignore meta_MinimumVersion MINIMUM_COMPATIBLE_DB_VERSION d) as (d1 & E1 & A1 & B1 & C1 & D1 & M1). rewrite (tx_bind_ok _ _ _ _ _ E1).
  set (mv := match zassoc meta_MinimumVersion (d_meta d) with Some z => z | None => MINIMUM_COMPATIBLE_DB_VERSION end) in *.
  rewrite (tx_bind_ok _ _ _ mv d1) by (unfold sql_meta_select; rewrite M1; reflexivity).
  assert (V : (CURRENT_DB_VERSION <? mv)%Z = false).
  { apply Z.ltb_ge. unfold mv. change CURRENT_DB_VERSION with 1%Z. change MINIMUM_COMPATIBLE_DB_VERSION with 1%Z. exact Hv. }
  rewrite V.
  destruct (meta_ignore meta_Version CURRENT_DB_VERSION d1) as (d2 & E2 & A2 & B2 & C2 & D2 & M2). rewrite (tx_bind_ok _ _ _ _ _ E2).
  destruct (meta_ignore meta_MaxHistorySize DEFAULT_MAX_HISTORY_SIZE d2) as (d3 & E3 & A3 & B3 & C3 & D3 & M3). rewrite (tx_bind_ok _ _ _ _ _ E3).
  destruct (tag_ignore tag_Front d3) as (d4 & E4 & A4 & B4 & C4 & D4 & M4). rewrite (tx_bind_ok _ _ _ _ _ E4).
  destruct (tag_ignore tag_Back d4) as (d5 & E5 & A5 & B5 & C5 & D5 & M5). rewrite (tx_bind_ok _ _ _ _ _ E5).
  pose proof (D5 _ _ M4) as M4'. unfold sql_tag_select at 1. rewrite M4'.
  eexists _, d5. split; [reflexivity|]. split; [congruence|]. split; [congruence|]. split; [|split].
  - intros k z Hz. rewrite B5, B4. auto.
  - intros k z Hz. apply D5, D4. rewrite B3, B2, B1. exact Hz.
  - unfold tx_open, tx_bind, sql_meta_insert_ignore, sql_meta_select, sql_tag_insert_ignore, sql_tag_select.
    rewrite B5, B4. rewrite (D3 _ _ (D2 _ _ M1)). rewrite B5, B4, (D3 _ _ (D2 _ _ M1)). rewrite V.
    rewrite B5, B4, (D3 _ _ M2). rewrite B5, B4, M3. rewrite M4', M5, M4'. reflexivity.
Qed.
Lemma open_newer f d v : zassoc meta_MinimumVersion (d_meta d) = Some v -> (1 < v)%Z ->
  exists e, sd_open f d = (d, Err e).
Proof.
  intros Hz Hv. unfold sd_open, sd_call. cbn [sd_faults sd_db sd_pos].
  assert (E : exists e, tx_open d = Err e).
  { unfold tx_open, tx_bind, sql_meta_insert_ignore, sql_meta_select. rewrite Hz. cbv iota beta. rewrite Hz. cbv iota beta.
    change CURRENT_DB_VERSION with 1%Z. destruct (Z.ltb_spec 1 v); [|lia]. eexists. reflexivity. }
  destruct E as [e E]. destruct f as [|[|] f]; rewrite ?E; cbn [fst snd sd_db]; eauto.
Qed.
