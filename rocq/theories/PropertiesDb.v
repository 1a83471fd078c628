(** PropertiesDb.v -- the saved-data properties C34, C37-C45 and C63, for any number of sessions
    sharing one database file, any interleaving of their calls and any external failures. *)
From Verif Require Import Base Position Num TokenTypes Errors SavedData Variables Sessions SpecEval SpecHistory.
From Verif Require Import ProofsLex ProofsText ProofsNum ProofsEval ProofsDb ProofsDb2 ProofsDb3 ProofsDb4 ProofsDb5.
From Coq Require Import String Sorted.
Local Open Scope nat_scope.
Local Open Scope list_scope.

(** A schedule used by the examples: sessions 0 and 1 interleave, one call fails, the capacity
    drops to 2 and older inputs are evicted. *)
Definition demo : schedule :=
  [ (0, false, Open); (0, false, AddInput (lit "$x=1/3")); (0, false, SetVariable (lit "x") (1 # 3) 1);
    (0, false, AddInput (lit "2")); (1, false, Open); (1, false, AddInput (lit "$x"));
    (1, false, TouchVariable (lit "x") 3); (0, true, AddInput (lit "lost")); (0, false, SetMax 2);
    (1, false, PrevInput); (1, false, PrevInput); (0, false, GetVariable (lit "x")) ].
Lemma demo_terms : lowest_terms demo.
Proof.
  intros i f x q id H. cbn in H. repeat (destruct H as [H|H]; [try discriminate H; injection H as <- <- <- <- <-; reflexivity|]). destruct H.
Qed.
Lemma demo_reachable : reachable (fst (run demo fresh)).
Proof. exists demo. split; [exact demo_terms|reflexivity]. Qed.
Example demo_run :
  snd (run demo fresh) =
    [RDone; RId 1; RDone; RId 2; RDone; RId 3; RDone; RError SqliteError; RDone; RInput (Some (lit "2"));
     RInput None; RValue (Some (1 # 3))] /\
  inputs_of (w_file (fst (run demo fresh))) = [(2%Z, lit "2"); (3%Z, lit "$x")].
Proof. vm_compute. split; reflexivity. Qed.

(** C34. After [x] was saved with value [q], and whatever happens that does not save [x] again
    (other variables, uses, evictions, failures, other sessions, restarts), any session that
    finds [x] on disk reads exactly [q]. *)
Theorem C34_values_survive_exactly : forall w i fault x q id w1 sch j w2 r,
  reachable w -> canon q ->
  step i fault (SetVariable x q id) w = (w1, RDone) ->
  lowest_terms sch -> (forall k f v n, ~ In (k, f, SetVariable x v n) sch) ->
  is_open (fst (run sch w1)) j ->
  step j false (GetVariable x) (fst (run sch w1)) = (w2, r) ->
  r = RValue (Some q) \/ (r = RValue None /\ forall v n, ~ saved (w_file (fst (run sch w1))) x v n).
Proof.
  intros w i fault x q id w1 sch j w2 r H Hc E Hq Hx Ho Eg.
  assert (H1 : reachable w1).
  { pose proof (reachable_step w i fault (SetVariable x q id) H) as P. rewrite E in P. apply P.
    intros y v n A. injection A as <- <- <-. exact Hc. }
  assert (K : forall v n, saved (w_file w1) x v n -> v = q).
  { intros v n Hs. destruct (set_saves w i fault x q id w1 H Hc E) as (_ & _ & S). apply S in Hs as [(_ & -> & _)|[C _]]; congruence. }
  destruct (get_reads _ j x w2 r (reachable_run w1 sch H1 Hq) Ho Eg) as (_ & [(v & n & Hs & ->)|[N ->]]); [left|right; auto].
  rewrite (run_value_kept x q sch w1 H1 Hq Hx K v n Hs). reflexivity.
Qed.
Print Assumptions C34_values_survive_exactly.
(** In particular the saved value is there at once. *)
Theorem C34_saved_value_is_there : forall w i fault x q id w1,
  reachable w -> canon q -> step i fault (SetVariable x q id) w = (w1, RDone) -> saved (w_file w1) x q id.
Proof. intros w i fault x q id w1 H Hc E. apply (set_saves w i fault x q id w1 H Hc E). auto. Qed.
Print Assumptions C34_saved_value_is_there.
Example C34_example :
  let w := fst (run demo fresh) in
  let c := SetVariable (lit "y") (-22 # 7) 2 in
  reachable w /\ canon (-22 # 7) /\ snd (step 1 false c w) = RDone /\
  snd (step 2 false (GetVariable (lit "y"))
        (fst (run [(2, false, Open); (0, false, SetVariable (lit "x") 5 3)] (fst (step 1 false c w)))))
    = RValue (Some (-22 # 7)).
Proof. split; [apply demo_reachable|]. split; [reflexivity|]. split; vm_compute; reflexivity. Qed.

(** C37. A saved variable always belongs to a stored input; *)
Theorem C37_owner_is_stored : forall w x q id, reachable w -> saved (w_file w) x q id -> In id (ids_of (w_file w)).
Proof. exact saved_is_used. Qed.
Print Assumptions C37_owner_is_stored.
(** calls that are not about variables remove exactly those whose input was evicted, *)
Theorem C37_removed_exactly_by_eviction : forall w i fault c w' r, reachable w -> step i fault c w = (w', r) ->
  (forall x q id, c <> SetVariable x q id) -> (forall x id, c <> TouchVariable x id) -> (forall x, c <> ClearVariable x) ->
  forall x q id, saved (w_file w') x q id <-> saved (w_file w) x q id /\ In id (ids_of (w_file w')).
Proof. exact eviction_only. Qed.
Print Assumptions C37_removed_exactly_by_eviction.
(** a use moves the variable, and no other, to the using input, *)
Theorem C37_use_moves : forall w i fault x id w', reachable w -> step i fault (TouchVariable x id) w = (w', RDone) ->
  inputs_of (w_file w') = inputs_of (w_file w) /\
  forall y v k, saved (w_file w') y v k <->
    (y = x /\ k = id /\ exists k0, saved (w_file w) x v k0) \/ (y <> x /\ saved (w_file w) y v k).
Proof. exact touch_moves. Qed.
Print Assumptions C37_use_moves.
(** setting it stores it, and no other, for the setting input, *)
Theorem C37_set_stores : forall w i fault x q id w', reachable w -> canon q ->
  step i fault (SetVariable x q id) w = (w', RDone) ->
  In id (ids_of (w_file w)) /\ inputs_of (w_file w') = inputs_of (w_file w) /\
  forall y v k, saved (w_file w') y v k <-> (y = x /\ v = q /\ k = id) \/ (y <> x /\ saved (w_file w) y v k).
Proof. exact set_saves. Qed.
Print Assumptions C37_set_stores.
(** and purging removes it, and no other. *)
Theorem C37_purge_removes : forall w i fault x w', reachable w -> step i fault (ClearVariable x) w = (w', RDone) ->
  inputs_of (w_file w') = inputs_of (w_file w) /\
  forall y v k, saved (w_file w') y v k <-> y <> x /\ saved (w_file w) y v k.
Proof. exact clear_removes. Qed.
Print Assumptions C37_purge_removes.
Example C37_example :
  (* used by input 3, so evicting 1 keeps it; evicting 3 removes it *)
  saved (w_file (fst (run demo fresh))) (lit "x") (1 # 3) 3 /\
  (forall q id, ~ saved (w_file (fst (run (demo ++ [(0, false, SetMax 1); (0, false, AddInput (lit "7"))]) fresh))) (lit "x") q id).
Proof.
  split.
  - vm_compute. eexists. repeat split; [left; reflexivity|reflexivity..].
  - intros q id H. vm_compute in H. destruct H as (r & [] & _).
Qed.

(** C38. The stored history is a doubly linked list, oldest to newest, with consistent tags and
    valid references, after any calls of any number of sessions with any failures. *)
Theorem C38_always_well_formed : forall w, reachable w -> w_file w = empty_db \/ well_formed (w_file w).
Proof. exact always_well_formed. Qed.
Print Assumptions C38_always_well_formed.
(** ... in particular whenever some session has the file open. *)
Theorem C38_open_well_formed : forall w i, reachable w -> is_open w i -> well_formed (w_file w).
Proof. intros w i H Ho. destruct (reachable_open w i H Ho) as [st R]. eapply rep_well_formed; eauto. Qed.
Print Assumptions C38_open_well_formed.
Example C38_example : is_open (fst (run demo fresh)) 1 /\
  d_hist (w_file (fst (run demo fresh))) = [mkHist 2 (lit "2") (Some 3%Z) None; mkHist 3 (lit "$x") None (Some 2%Z)].
Proof. vm_compute. split; [discriminate|reflexivity]. Qed.

(** C39. *)
Theorem C39_never_exceeds_capacity : forall w, reachable w -> w_file w = empty_db \/
  exists cap, capacity (w_file w) cap /\ (1 <= cap)%Z /\
    (Z.of_nat (List.length (inputs_of (w_file w))) <= cap)%Z.
Proof. exact always_bounded. Qed.
Print Assumptions C39_never_exceeds_capacity.
(** ... and the capacity is what the program reports. *)
Theorem C39_reported_capacity : forall w i w' r, reachable w -> is_open w i -> step i false GetMax w = (w', r) ->
  exists cap, capacity (w_file w) cap /\ r = RMax cap.
Proof.
  intros w i w' r H Ho E. destruct (reachable_open w i H Ho) as [st R]. exists (st_cap st). split; [apply R|].
  destruct (step_cases _ _ _ _ _ _ _ R Ho E) as [[_ [[_ C]|[C|C]]]|(_ & _ & _ & -> & R')]; try discriminate. reflexivity.
Qed.
Print Assumptions C39_reported_capacity.
Example C39_example : capacity (w_file (fst (run demo fresh))) 2 /\ List.length (inputs_of (w_file (fst (run demo fresh)))) = 2.
Proof. vm_compute. split; reflexivity. Qed.

(** C40. Storing an input appends it and drops only the oldest inputs beyond the capacity; *)
Theorem C40_store_appends : forall w i text w' r, reachable w -> is_open w i ->
  step i false (AddInput text) w = (w', r) ->
  exists cap id, capacity (w_file w) cap /\ capacity (w_file w') cap /\ r = RId id /\
    inputs_of (w_file w') = newest cap (inputs_of (w_file w) ++ [(id, text)]).
Proof. exact add_fifo. Qed.
Print Assumptions C40_store_appends.
(** changing the capacity keeps exactly the newest inputs; *)
Theorem C40_resize_keeps_newest : forall w i n w' r, reachable w -> is_open w i -> (1 <= n)%Z ->
  step i false (SetMax n) w = (w', r) ->
  r = RDone /\ capacity (w_file w') n /\ inputs_of (w_file w') = newest n (inputs_of (w_file w)).
Proof. exact setmax_fifo. Qed.
Print Assumptions C40_resize_keeps_newest.
(** nothing else changes the history or its capacity. *)
Theorem C40_nothing_else_changes_history : forall w i fault c w' r, reachable w -> is_open w i ->
  step i fault c w = (w', r) -> (forall x q id, c = SetVariable x q id -> canon q) ->
  (forall text, c <> AddInput text) -> (forall n, c <> SetMax n) ->
  inputs_of (w_file w') = inputs_of (w_file w) /\ forall n, capacity (w_file w) n <-> capacity (w_file w') n.
Proof. exact others_keep_history. Qed.
Print Assumptions C40_nothing_else_changes_history.
(** In one statement: every run behaves like the bounded queue with variables of SpecHistory. *)
Theorem C40_behaves_like_the_specification : forall sch, lowest_terms sch ->
  exists sw, srun sch sfresh sw (snd (run sch fresh)) /\
    forall st, sw_store sw = Some st ->
      inputs_of (w_file (fst (run sch fresh))) = st_inputs st /\
      capacity (w_file (fst (run sch fresh))) (st_cap st) /\
      forall x q id, saved (w_file (fst (run sch fresh))) x q id <-> st_vars st x = Some (q, id).
Proof.
  intros sch Hq. destruct (run_refines sch _ _ fresh_corresponds Hq) as (sw & S & C). exists sw. split; [exact S|].
  intros st Es. unfold corresponds in C. rewrite Es in C. destruct C as [R _].
  split; [apply rep_inputs, R|]. split; [apply R|]. intros x q id. apply rep_saved, R.
Qed.
Print Assumptions C40_behaves_like_the_specification.
Example C40_example :
  let r := step 0 false (AddInput (lit "8")) (fst (run demo fresh)) in
  snd r = RId 4 /\ inputs_of (w_file (fst r)) = [(3%Z, lit "$x"); (4%Z, lit "8")].
Proof. split; vm_compute; reflexivity. Qed.

(** C41. The identifiers handed out in a run are strictly increasing. *)
Theorem C41_identifiers_increase : forall sch, lowest_terms sch -> StronglySorted Z.lt (ids_given (snd (run sch fresh))).
Proof. exact ids_never_reused. Qed.
Print Assumptions C41_identifiers_increase.
Example C41_example : ids_given (snd (run (demo ++ [(0, false, SetMax 1); (0, false, AddInput (lit "9"))]) fresh)) = [1; 2; 3; 4]%Z.
Proof. vm_compute. reflexivity. Qed.

(** C42. What a session fetches after opening is, in order, what was stored when it opened,
    newest first; it stops early only if the remaining inputs are no longer stored. *)
Theorem C42_scrollback_is_stable : forall w i w1 sch,
  reachable w -> step i false Open w = (w1, RDone) -> lowest_terms sch -> does_not_open i sch ->
  let got := fetched i sch (snd (run sch w1)) in
  let stored := rev (inputs_of (w_file w)) in
  got = map snd (firstn (List.length got) stored) /\
  forall fault, snd (step i fault PrevInput (fst (run sch w1))) = RInput None ->
    forall e, In e (skipn (List.length got) stored) -> ~ In (fst e) (ids_of (w_file (fst (run sch w1)))).
Proof. exact scrollback. Qed.
Print Assumptions C42_scrollback_is_stable.
Example C42_example :
  let w := fst (run demo fresh) in
  let sch := [(0, false, AddInput (lit "new")); (5, false, PrevInput); (5, false, PrevInput); (0, false, AddInput (lit "newer"))] in
  let w1 := fst (step 5 false Open w) in
  snd (step 5 false Open w) = RDone /\ fetched 5 sch (snd (run sch w1)) = [lit "$x"] /\
  snd (step 5 false PrevInput (fst (run sch w1))) = RInput None.
Proof. repeat split; vm_compute; reflexivity. Qed.

(** C43. A failing call -- on any file, whatever its content -- changes neither the file nor any
    session's position; *)
Theorem C43_all_or_nothing : forall i fault c w w' r, step i fault c w = (w', r) ->
  (exists e, r = RError e) \/ (exists p, r = RCrash p) ->
  w_file w' = w_file w /\ forall j, w_pos w' j = w_pos w j.
Proof. exact failures_change_nothing. Qed.
Print Assumptions C43_all_or_nothing.
(** and a run cut anywhere leaves a well-formed file. *)
Theorem C43_crash_leaves_well_formed : forall sch n, lowest_terms sch ->
  let d := w_file (fst (run (firstn n sch) fresh)) in d = empty_db \/ well_formed d.
Proof.
  intros sch n Hq. apply always_well_formed. exists (firstn n sch). split; [|reflexivity].
  intros i f x q id Hin. apply (Hq i f x q id). rewrite <- (firstn_skipn n sch). apply in_app_iff. auto.
Qed.
Print Assumptions C43_crash_leaves_well_formed.
Example C43_example :
  (* even when the file violates the program's invariants *)
  let bad := mkDb [(meta_MaxHistorySize, 1%Z)] [mkHist 7 (lit "a") None None; mkHist 9 (lit "b") None None]
                  [(tag_Front, Some 9%Z); (tag_Back, None)] [] in
  let w := mkWorld bad (fun _ => Some None) in
  snd (step 0 false (AddInput (lit "c")) w) = RError SqliteError.
Proof. vm_compute. reflexivity. Qed.

(** C44. On every reachable file, storing an input or changing the capacity succeeds unless
    SQLite itself fails; *)
Theorem C44_bookkeeping_never_fails : forall w i text n, reachable w -> is_open w i -> (1 <= n)%Z ->
  (exists id, snd (step i false (AddInput text) w) = RId id) /\ snd (step i false (SetMax n) w) = RDone.
Proof.
  intros w i text n H Ho Hn. split.
  - destruct (step i false (AddInput text) w) as [w' r] eqn:E. destruct (add_fifo w i text w' r H Ho E) as (cap & id & _ & _ & -> & _). exists id. reflexivity.
  - destruct (step i false (SetMax n) w) as [w' r] eqn:E. apply (setmax_fifo w i n w' r H Ho Hn E).
Qed.
Print Assumptions C44_bookkeeping_never_fails.
(** and no call ever crashes or fails for any other reason than an external failure, a variable
    written for an input that is no longer stored, or an invalid capacity. *)
Theorem C44_only_expected_failures : forall w i fault c w' r, reachable w -> step i fault c w = (w', r) ->
  (forall x q id, c = SetVariable x q id -> canon q) ->
  (forall p, r <> RCrash p) /\
  forall e, r = RError e ->
    (fault = true /\ e = SqliteError) \/
    (e = SqliteConstraint /\ exists x id,
       ((exists q, c = SetVariable x q id) \/ c = TouchVariable x id) /\ ~ In id (ids_of (w_file w))) \/
    (exists n, c = SetMax n /\ (n < 1)%Z).
Proof. exact expected_failures. Qed.
Print Assumptions C44_only_expected_failures.
Example C44_example :
  let w := fst (run demo fresh) in
  is_open w 0 /\ snd (step 0 false (AddInput (lit "z")) w) = RId 4 /\
  snd (step 0 false (TouchVariable (lit "x") 1) w) = RError SqliteConstraint.
Proof. vm_compute. repeat split; discriminate. Qed.

(** C45. Opening a compatible file (of any content) succeeds, keeps every stored item, and doing
    it again changes nothing and gives the same handle; *)
Theorem C45_open_preserves : forall d,
  (forall v, zassoc meta_MinimumVersion (d_meta d) = Some v -> (v <= 1)%Z) ->
  exists d' sd, sd_open [false] d = (d', Ok sd) /\
    d_hist d' = d_hist d /\ d_vars d' = d_vars d /\
    (forall k z, zassoc k (d_meta d) = Some z -> zassoc k (d_meta d') = Some z) /\
    (forall k z, zassoc k (d_tags d) = Some z -> zassoc k (d_tags d') = Some z) /\
    sd_open [false] d' = (d', Ok sd).
Proof.
  intros d Hv. destruct (open_general d) as (front & d' & E & A & B & C & D & F).
  - unfold min_version. destruct (zassoc meta_MinimumVersion (d_meta d)) as [v|]; [apply Hv; reflexivity|lia].
  - exists d', (mkSD d' front []). unfold sd_open, sd_call. cbn [sd_faults sd_db sd_pos]. rewrite E, F. cbn. auto 8.
Qed.
Print Assumptions C45_open_preserves.
(** opening a file that was opened before does not change it at all; *)
Theorem C45_reopen_is_identity : forall w i j w', reachable w -> is_open w j -> step i false Open w = (w', RDone) -> w_file w' = w_file w.
Proof.
  intros w i j w' H Ho E. destruct (reachable_open w j H Ho) as [st R].
  unfold step, sd_open, sd_call in E. cbn [sd_faults sd_db sd_pos] in E. rewrite (open_rep _ _ R) in E. injection E as <-. reflexivity.
Qed.
Print Assumptions C45_reopen_is_identity.
(** a file that requires a newer version is refused and left unmodified. *)
Theorem C45_newer_is_refused : forall faults d v, zassoc meta_MinimumVersion (d_meta d) = Some v -> (1 < v)%Z ->
  exists e, sd_open faults d = (d, Err e).
Proof. exact open_newer. Qed.
Print Assumptions C45_newer_is_refused.
Example C45_example :
  let newer := mkDb [(meta_MinimumVersion, 2%Z)] [mkHist 1 (lit "1") None None] [] [] in
  sd_open [false] newer = (newer, Err (CalculatorDatabaseInconsistencyError
    (lit "Database version is not compatible with executable version"))) /\
  exists d sd, sd_open [false] empty_db = (d, Ok sd) /\ d <> empty_db.
Proof. split; [reflexivity|]. eexists _, _. split; [reflexivity|]. discriminate. Qed.

(** C63. If the input of the running line was evicted (by other sessions), saving a variable for
    it fails with a reported error and changes nothing; it succeeds if the input is still there. *)
Theorem C63_evicted_input_fails_cleanly : forall w i x q id w' r,
  reachable w -> is_open w i -> canon q -> ~ In id (ids_of (w_file w)) ->
  step i false (SetVariable x q id) w = (w', r) ->
  r = RError SqliteConstraint /\ w_file w' = w_file w /\ well_formed (w_file w').
Proof.
  intros w i x q id w' r H Ho Hc Hn E. destruct (evicted_fails w i x q id w' r H Ho Hc Hn E) as [-> Ef].
  split; [reflexivity|]. split; [exact Ef|]. rewrite Ef. eapply C38_open_well_formed; eauto.
Qed.
Print Assumptions C63_evicted_input_fails_cleanly.
Theorem C63_stored_input_saves : forall w i x q id, reachable w -> is_open w i -> canon q -> In id (ids_of (w_file w)) ->
  snd (step i false (SetVariable x q id) w) = RDone.
Proof. exact present_saves. Qed.
Print Assumptions C63_stored_input_saves.
(** The line itself reports the failure and still assigns the variable in memory. *)
Theorem C63_line_reports_and_assigns : forall vars x q id sd, sd_faults sd = [] -> ~ In id (ids_of (sd_db sd)) ->
  exists vars' sd', vs_update vars x q (Some id) (Some sd) = (vars', Some sd', Err SqliteConstraint) /\
    sd_db sd' = sd_db sd /\ vs_get vars' x = Some q.
Proof.
  intros vars x q id sd Hf Hn. exists (vs_insert vars x q), sd. split.
  - unfold vs_update, set_variable, sd_call. rewrite Hf. unfold tx_set_variable.
    change (@to_str_radix runtime_error (Qnum q) VARIABLE_STORAGE_RADIX) with (@Ok runtime_error _ (show_Z (Qnum q))).
    change (@to_str_radix runtime_error (Zpos (Qden q)) VARIABLE_STORAGE_RADIX) with (@Ok runtime_error _ (show_Z (Zpos (Qden q)))).
    cbn [bind]. unfold sql_var_insert. cbn [v_used v_name].
    assert (X : has_id (d_hist (sd_db sd)) id = false).
    { apply has_id_false. unfold ids_of, inputs_of in Hn. rewrite map_map in Hn. exact Hn. }
    rewrite X. cbn. destruct sd as [d p f]. cbn in *. subst f. reflexivity.
  - split; [reflexivity|]. cbn [vs_insert vs_get]. rewrite (proj2 (str_eqb_spec x x) eq_refl). reflexivity.
Qed.
Print Assumptions C63_line_reports_and_assigns.
Example C63_example :
  (* session 0 stores an input, session 1 pushes it out, session 0 tries to save its variable *)
  let sch := [(0, false, Open); (0, false, SetMax 1); (0, false, AddInput (lit "$a=1")); (1, false, Open); (1, false, AddInput (lit "2"))] in
  snd (run (sch ++ [(0, false, SetVariable (lit "a") 1 1)]) fresh) =
    [RDone; RDone; RId 1; RDone; RId 2; RError SqliteConstraint].
Proof. vm_compute. reflexivity. Qed.
