(** ProofsDb2.v -- every API call implements the corresponding call of the abstract store. *)
From Verif Require Import Base Position Num TokenTypes Errors SavedData Sessions SpecEval SpecHistory ProofsLex ProofsText ProofsNum ProofsEval ProofsDb.
From Coq Require Import String Sorted Permutation.
Local Open Scope nat_scope.
Local Open Scope list_scope.

Lemma rep_db d st : represents d st -> d = db_of (d_meta d) (st_inputs st) (d_vars d).
Proof. intros H. unfold db_of. rewrite <- (rp_hist _ _ H), <- (rp_tags _ _ H). destruct d; reflexivity. Qed.

Lemma restrict_in keep f x q id : restrict keep f x = Some (q, id) -> f x = Some (q, id) /\ keep id = true.
Proof.
  unfold restrict. destruct (f x) as [[q' id']|]; [|discriminate]. destruct (keep id') eqn:K; [|discriminate].
  intros E. injection E as <- <-. auto.
Qed.

Lemma incr_newest n l : incr l -> incr (newest n l).
Proof. intros H. destruct (newest_suffix n l) as [pre E]. rewrite E in H. apply incr_app in H. tauto. Qed.

(** enforcing the capacity *)
Lemma enforce_spec m l vs f cap : zassoc meta_MaxHistorySize m = Some cap -> (1 <= cap)%Z -> incr l -> vars_rep vs f ->
  (forall x q id, f x = Some (q, id) -> In id (map fst l)) ->
  exists vs', tx_enforce (db_of m l vs) = Ok (tt, db_of m (newest cap l) vs') /\
    vars_rep vs' (restrict (has_input (newest cap l)) f).
Proof.
  intros Hc H1 Hi Hv Hu. unfold tx_enforce. rewrite (tx_bind_ok _ _ _ cap (db_of m l vs)).
  2:{ unfold tx_get_max, sql_meta_select. cbn [db_of d_meta]. rewrite Hc. reflexivity. }
  unfold validate_max_history_size. destruct (Z.ltb_spec cap 1); [lia|]. cbv iota beta.
  apply evict_spec; auto. cbn [db_of d_hist]. rewrite link_length. lia.
Qed.

Lemma shrink_rep m l vs' f cap : versions (mkDb m [] [] []) -> zassoc meta_MaxHistorySize m = Some cap -> (1 <= cap)%Z -> incr l ->
  vars_rep vs' (restrict (has_input (newest cap l)) f) ->
  represents (db_of m (newest cap l) vs') (shrink cap l f).
Proof.
  intros Hver Hc H1 Hi Hv. constructor; cbn [shrink st_cap st_inputs st_vars db_of d_meta d_hist d_tags d_vars]; auto.
  - apply incr_newest, Hi.
  - rewrite newest_length by lia. lia.
  - intros x q id E. apply restrict_in in E as [_ E]. apply has_input_in, E.
Qed.

(** storing an input *)
Lemma link_snoc p l j u i t : ~ In j (map fst l) ->
  map (fun r => if Z.eqb (h_id r) j then mkHist (h_id r) (h_input r) (Some i) (h_prev r) else r) (link p (l ++ [(j, u)]))
  ++ [mkHist i t None (Some j)] = link p (l ++ [(j, u); (i, t)]).
Proof.
  revert p. induction l as [|[k v] l IH]; intros p H.
  - cbn [app link map h_id]. rewrite Z.eqb_refl. reflexivity.
  - cbn [app link map h_id]. destruct (Z.eqb_spec k j) as [->|Hn]; [destruct H; left; reflexivity|].
    cbn [app]. rewrite IH by (intros C; apply H; right; exact C). f_equal. f_equal. destruct l as [|[? ?] l]; reflexivity.
Qed.
Lemma head_id_snoc l e e' : head_id ((l ++ [e]) ++ [e']) = head_id (l ++ [e]).
Proof. destruct l as [|[? ?] l]; reflexivity. Qed.

Lemma add_spec d st text : represents d st ->
  exists d', tx_add text d = Ok (next_id (st_inputs st), d') /\ represents d' (fst (spec_call (AddInput text) st)).
Proof.
  intros H. pose proof (rep_db _ _ H) as Hd. destruct H as [Hver Hc Hc1 _ Hi _ _ Hv Hu].
  set (l := st_inputs st) in *. set (m := d_meta d) in *. set (vs := d_vars d) in *. set (i := next_id l) in *.
  rewrite Hd. clear Hd.
  assert (Hab : forall k, In k (map fst l) -> (k < i)%Z) by (apply next_id_above, Hi).
  assert (Hi' : incr (l ++ [(i, text)])).
  { apply incr_app. split; [exact Hi|]. split; [repeat constructor|]. intros x y Hx [<-|[]]. apply Hab, Hx. }
  destruct (enforce_spec m (l ++ [(i, text)]) vs (st_vars st) (st_cap st) Hc Hc1 Hi' Hv) as (vs' & En & Rv).
  { intros x q id E. rewrite map_app. apply in_app_iff. left. eapply Hu; eauto. }
  exists (db_of m (newest (st_cap st) (l ++ [(i, text)])) vs').
  split; [|cbn [spec_call fst]; fold l; fold i; apply shrink_rep; auto].
  unfold tx_add. rewrite (tx_bind_ok _ _ _ (last_id l) (db_of m l vs)) by reflexivity.
  pose (rows1 := link None l ++ [mkHist i text None (last_id l)]).
  assert (HI : forall k, In k (map fst l) \/ k = i -> has_id rows1 k = true).
  { intros k Hk. apply has_id_in. unfold rows1. rewrite map_app, link_ids. apply in_app_iff.
    destruct Hk as [Hk| ->]; [left; exact Hk|right; left; reflexivity]. }
  rewrite (tx_bind_ok _ _ _ i (mkDb m rows1 [(tag_Front, last_id l); (tag_Back, head_id l)] vs)).
  2:{ unfold sql_hist_insert. cbn [db_of d_hist]. rewrite (next_rowid_link l Hi). fold i. fold rows1.
      assert (FK : fk_ok rows1 (last_id l) = true).
      { destruct (list_snoc l) as [->|(l' & (j & u) & E)]; [reflexivity|]. rewrite E, last_id_snoc. cbn [fk_ok].
        apply HI. left. rewrite E, map_app. apply in_app_iff. right; left; reflexivity. }
      rewrite FK. reflexivity. }
  rewrite (tx_bind_ok _ _ _ tt (mkDb m rows1 [(tag_Front, Some i); (tag_Back, head_id l)] vs)).
  2:{ unfold sql_tag_update. cbn [d_tags d_hist]. change (zassoc tag_Front _) with (Some (last_id l)). cbv iota.
      cbn [fk_ok]. rewrite HI by auto. reflexivity. }
  rewrite (tx_bind_ok _ _ _ tt (db_of m (l ++ [(i, text)]) vs)).
  { rewrite (tx_bind_ok _ _ _ tt _ En). reflexivity. }
  destruct (list_snoc l) as [E|(l' & (j & u) & E)].
  - rewrite E. cbn [last_id rev hd_error option_map]. unfold sql_tag_update. cbn [d_tags d_hist].
    change (zassoc tag_Back _) with (Some (head_id [])). cbv iota. cbn [fk_ok]. rewrite HI by auto.
    unfold db_of, set_tags, rows1. rewrite E. reflexivity.
  - rewrite E, last_id_snoc. unfold sql_hist_set_next. cbn [d_hist].
    rewrite !HI by (try (right; reflexivity); left; rewrite E, map_app; apply in_app_iff; right; left; reflexivity).
    unfold set_hist, db_of, rows1. cbn [d_meta d_hist d_tags d_vars]. rewrite last_id_snoc. rewrite head_id_snoc.
    rewrite map_app. cbn [map h_id].
    assert (Hji : (j < i)%Z) by (apply Hab; rewrite E, map_app; apply in_app_iff; right; left; reflexivity).
    destruct (Z.eqb_spec i j); [lia|]. rewrite E, last_id_snoc. rewrite link_snoc.
    + rewrite <- app_assoc. reflexivity.
    + rewrite E in Hi. apply incr_app in Hi as (_ & _ & Hi). intros C. specialize (Hi j j C (or_introl eq_refl)). lia.
Qed.

Lemma zassoc_zupdate {A} k k0 (v : A) m :
  zassoc k (zupdate k0 v m) = if Z.eqb k k0 then option_map (fun _ => v) (zassoc k0 m) else zassoc k m.
Proof.
  induction m as [|[k' v'] m IH]; [cbn; destruct (Z.eqb k k0); reflexivity|].
  unfold zupdate in *. cbn [map fst]. destruct (Z.eqb_spec k0 k') as [<-|Hk]; cbn [zassoc].
  - rewrite Z.eqb_refl. destruct (Z.eqb_spec k k0) as [->|]; [reflexivity|]. exact IH.
  - rewrite IH. destruct (Z.eqb_spec k0 k'); [contradiction|].
    destruct (Z.eqb_spec k k') as [->|]; [|reflexivity]. destruct (Z.eqb_spec k' k0); [congruence|reflexivity].
Qed.

Lemma set_max_spec d st n : represents d st -> (1 <= n)%Z ->
  exists d', tx_set_max n d = Ok (tt, d') /\ represents d' (fst (spec_call (SetMax n) st)).
Proof.
  intros H Hn. pose proof (rep_db _ _ H) as Hd. destruct H as [[Hv1 Hv2] Hc Hc1 _ Hi _ _ Hv Hu].
  unfold tx_set_max, validate_max_history_size. destruct (Z.ltb_spec n 1); [lia|].
  set (m' := zupdate meta_MaxHistorySize n (d_meta d)).
  assert (Zu : forall k, zassoc k m' = if Z.eqb k meta_MaxHistorySize then Some n else zassoc k (d_meta d)).
  { intros k. unfold m'. rewrite zassoc_zupdate, Hc. reflexivity. }
  rewrite (tx_bind_ok _ _ _ tt (db_of m' (st_inputs st) (d_vars d))).
  2:{ unfold sql_meta_insert_replace. rewrite Hc. f_equal. f_equal. rewrite Hd at 1. reflexivity. }
  destruct (enforce_spec m' (st_inputs st) (d_vars d) (st_vars st) n) as (vs' & En & Rv); auto.
  { rewrite Zu. reflexivity. }
  exists (db_of m' (newest n (st_inputs st)) vs'). split; [exact En|]. cbn [spec_call]. destruct (Z.ltb_spec n 1); [lia|].
  cbn [fst]. apply shrink_rep; auto; [split|]; cbn [d_meta]; rewrite Zu; auto.
Qed.

(** variables *)
Lemma nodup_snoc {A} (l : list A) a : NoDup l -> ~ In a l -> NoDup (l ++ [a]).
Proof. intros H N. apply (Permutation_NoDup (Permutation_cons_append l a)). constructor; assumption. Qed.
Lemma str_eqb_false a b : str_eqb a b = false <-> a <> b.
Proof. rewrite <- (str_eqb_spec a b). destruct (str_eqb a b); split; congruence. Qed.

Lemma clear_var_rep rows f x : vars_rep rows f ->
  vars_rep (filter (fun v => negb (str_eqb (v_name v) x)) rows) (set_var f x None).
Proof.
  intros (A & B & C). split; [apply nodup_filter_names, A|]. split.
  - intros r Hr. apply filter_In in Hr as [Hr _]. auto.
  - intros y q id. unfold set_var. destruct (str_eqb y x) eqn:E.
    + apply str_eqb_spec in E. subst y. split; [discriminate|]. intros (r & Hr & Hn & _). apply filter_In in Hr as [_ Hr].
      rewrite (proj2 (str_eqb_spec _ _) Hn) in Hr. discriminate Hr.
    + rewrite C. split; intros (r & Hr & Hn & Hh); exists r.
      * split; [|auto]. apply filter_In. split; [exact Hr|]. rewrite Hn, E. reflexivity.
      * apply filter_In in Hr as [Hr _]. auto.
Qed.
Lemma set_var_rep rows f r q : vars_rep rows f -> row_holds r q ->
  vars_rep (filter (fun v => negb (str_eqb (v_name v) (v_name r))) rows ++ [r]) (set_var f (v_name r) (Some (q, v_used r))).
Proof.
  intros H Hr. destruct (clear_var_rep rows f (v_name r) H) as (A & B & C). split; [|split].
  - rewrite map_app. apply nodup_snoc; [exact A|]. intros X. apply in_map_iff in X as (v & E & X). apply filter_In in X as [_ X].
    rewrite (proj2 (str_eqb_spec _ _) E) in X. discriminate X.
  - intros r' Hr'. apply in_app_iff in Hr' as [Hr'|[<-|[]]]; [auto|eauto].
  - intros y q' id. specialize (C y q' id). unfold set_var in *. destruct (str_eqb y (v_name r)) eqn:E.
    + apply str_eqb_spec in E. split.
      * intros E1. injection E1 as <- <-. exists r. rewrite in_app_iff. split; [right; left; reflexivity|auto].
      * intros (r' & Hr' & Hn & Hh & Hu). apply in_app_iff in Hr' as [Hr'|[<-|[]]].
        { destruct C as [_ C]. discriminate C. exists r'. auto. }
        rewrite <- Hu. f_equal. f_equal. eapply row_holds_inj; eauto.
    + rewrite C. split; intros (r' & Hr' & Hn & Hh); exists r'.
      * rewrite in_app_iff. auto.
      * apply in_app_iff in Hr' as [Hr'|[<-|[]]]; [auto|]. exfalso. apply str_eqb_false in E. congruence.
Qed.
Lemma touch_var_rep rows f x q id0 id : vars_rep rows f -> f x = Some (q, id0) ->
  vars_rep (map (fun v => if str_eqb (v_name v) x then mkVar (v_name v) (v_numer v) (v_denom v) id else v) rows)
           (set_var f x (Some (q, id))).
Proof.
  intros (A & B & C) Hx. set (g := fun v : var_row => if str_eqb (v_name v) x then mkVar (v_name v) (v_numer v) (v_denom v) id else v).
  assert (Gn : forall v, v_name (g v) = v_name v) by (intros v; unfold g; destruct (str_eqb (v_name v) x); reflexivity).
  assert (Gh : forall v p, row_holds (g v) p <-> row_holds v p) by (intros v p; unfold g; destruct (str_eqb (v_name v) x); reflexivity).
  split; [|split].
  - rewrite map_map. erewrite map_ext; [exact A|]. intros v. apply Gn.
  - intros r Hr. apply in_map_iff in Hr as (v & <- & Hv). destruct (B v Hv) as [p Hp]. exists p. apply Gh, Hp.
  - intros y p k. unfold set_var. destruct (str_eqb y x) eqn:E.
    + apply str_eqb_spec in E. subst y. apply C in Hx as (r & Hr & Hn & Hh & Hu). split.
      * intros E1. injection E1 as <- <-. exists (g r). split; [apply in_map, Hr|]. rewrite Gn, Gh. split; [exact Hn|]. split; [exact Hh|].
        unfold g. rewrite (proj2 (str_eqb_spec _ _) Hn). reflexivity.
      * intros (r' & Hr' & Hn' & Hh' & Hu'). apply in_map_iff in Hr' as (v & <- & Hv). rewrite Gn in Hn'. apply (proj1 (Gh _ _)) in Hh'.
        assert (v = r) by (apply (nodup_names rows); auto; congruence). subst v.
        assert (p = q) by (exact (row_holds_inj _ _ _ Hh' Hh)). subst p. rewrite <- Hu'. unfold g. rewrite (proj2 (str_eqb_spec _ _) Hn). reflexivity.
    + rewrite C. apply str_eqb_false in E. split; intros (r & Hr & Hn & Hh & Hu).
      * exists (g r). split; [apply in_map, Hr|]. rewrite Gn, Gh. split; [exact Hn|]. split; [exact Hh|].
        unfold g. destruct (str_eqb (v_name r) x) eqn:E2; [apply str_eqb_spec in E2; congruence|exact Hu].
      * apply in_map_iff in Hr as (v & <- & Hv). rewrite Gn in Hn. apply (proj1 (Gh _ _)) in Hh. exists v. split; [exact Hv|]. split; [exact Hn|]. split; [exact Hh|].
        unfold g in Hu. destruct (str_eqb (v_name v) x) eqn:E2; [apply str_eqb_spec in E2; congruence|exact Hu].
Qed.

Lemma vars_rep_find rows f x : vars_rep rows f ->
  match f x with
  | Some (q, id) => exists r, find_var rows x = Some r /\ row_holds r q /\ v_used r = id
  | None => find_var rows x = None
  end.
Proof.
  intros (A & B & C). destruct (find_var rows x) as [r|] eqn:F.
  - apply find_var_some in F as [Hr Hn]. destruct (B r Hr) as [q Hq].
    assert (E : f x = Some (q, v_used r)) by (apply C; eauto). rewrite E. exists r. auto.
  - destruct (f x) as [[q id]|] eqn:E; [|reflexivity]. apply C in E as (r & Hr & Hn & _). exfalso. eapply find_var_none; eauto.
Qed.

Lemma rep_rows_ok d st : represents d st -> rows_ok d.
Proof. intros H. destruct (rp_vars _ _ H) as (A & B & _). split; assumption. Qed.

Lemma rep_has_id d st id : represents d st -> has_id (d_hist d) id = has_input (st_inputs st) id.
Proof. intros H. rewrite (rp_hist _ _ H). apply has_input_has_id. Qed.

Lemma rep_set_vars d st vs f : represents d st -> vars_rep vs f ->
  (forall x q id, f x = Some (q, id) -> In id (map fst (st_inputs st))) ->
  represents (set_vars d vs) (mkStore (st_cap st) (st_inputs st) f).
Proof. intros [] Hv Hu. constructor; auto. Qed.

Lemma rep_same d st st' : same_store st st' -> represents d st -> represents d st'.
Proof.
  destruct st as [c l f], st' as [c' l' f']. intros (E1 & E2 & E3) H. destruct H as [R1 R2 R3 R4 R5 R6 R7 R8 R9]. cbn [st_cap st_inputs st_vars] in *. subst.
  constructor; cbn [st_cap st_inputs st_vars]; auto.
  - apply (vars_rep_ext _ f); assumption.
  - intros x q id. rewrite <- E3. apply R9.
Qed.

Definition tx_of (c : call) : tx reply :=
  match c with
  | AddInput text => id <~ tx_add text ;; tx_ret (RId id)
  | SetVariable x q id => _ <~ tx_set_variable x q id ;; tx_ret RDone
  | TouchVariable x id => _ <~ tx_touch_variable x id ;; tx_ret RDone
  | GetVariable x => v <~ tx_get_variable x ;; tx_ret (RValue v)
  | ClearVariable x => _ <~ tx_clear_variable x ;; tx_ret RDone
  | GetMax => v <~ tx_get_max ;; tx_ret (RMax v)
  | SetMax n => _ <~ tx_set_max n ;; tx_ret RDone
  | Open | PrevInput => tx_ret RDone
  end.
Definition tx_reply (o : outcome runtime_error (reply * database)) (d : database) : database * reply :=
  match o with Ok (r, d') => (d', r) | Err e => (d, RError e) | Panic p => (d, RCrash p) end.

(** Every call on a database representing a store does what the specification says. *)
Lemma call_spec c d st : represents d st -> (forall x q id, c = SetVariable x q id -> canon q) ->
  c <> Open -> c <> PrevInput ->
  snd (tx_reply (tx_of c d) d) = snd (spec_call c st) /\ represents (fst (tx_reply (tx_of c d) d)) (fst (spec_call c st)).
Proof.
  intros H Hq Ho Hp. destruct c as [|text| |x q id|x id|x|x| |n]; try congruence; cbn [tx_of].
  - destruct (add_spec d st text H) as (d' & E & R). rewrite (tx_bind_ok _ _ _ _ _ E). cbn. split; [reflexivity|exact R].
  - specialize (Hq _ _ _ eq_refl). unfold tx_bind, tx_set_variable. change (@to_str_radix runtime_error (Qnum q) VARIABLE_STORAGE_RADIX) with (@Ok runtime_error _ (show_Z (Qnum q))).
    change (@to_str_radix runtime_error (Zpos (Qden q)) VARIABLE_STORAGE_RADIX) with (@Ok runtime_error _ (show_Z (Zpos (Qden q)))).
    cbn [bind]. unfold sql_var_insert. cbn [v_used v_name]. rewrite (rep_has_id d st id H). cbn [spec_call].
    destruct (has_input (st_inputs st) id) eqn:E; cbn; [|split; [reflexivity|exact H]].
    split; [reflexivity|]. apply rep_set_vars; [exact H| |].
    + apply (set_var_rep (d_vars d) (st_vars st) (mkVar x (show_Z (Qnum q)) (show_Z (Zpos (Qden q))) id) q); [apply H|]. apply row_holds_show. split; [exact Hq|split; reflexivity].
    + intros y p k. unfold set_var. destruct (str_eqb y x); [|apply (rp_used _ _ H)]. intros E1. injection E1 as <- <-. apply has_input_in, E.
  - unfold tx_bind, tx_touch_variable, sql_var_touch. pose proof (vars_rep_find _ _ x (rp_vars _ _ H)) as F. cbn [spec_call].
    assert (X : existsb (fun v => str_eqb (v_name v) x) (d_vars d) = match st_vars st x with Some _ => true | None => false end).
    { destruct (st_vars st x) as [[q k]|].
      - destruct F as (r & Fr & _). apply find_var_some in Fr as [Hr Hn]. apply existsb_exists. exists r. split; [exact Hr|]. apply str_eqb_spec, Hn.
      - apply not_true_is_false. rewrite existsb_exists. intros (r & Hr & E). apply str_eqb_spec in E. eapply find_var_none; eauto. }
    rewrite X. destruct (st_vars st x) as [[q k]|] eqn:Ex; [|cbn; split; [reflexivity|exact H]].
    rewrite (rep_has_id d st id H). destruct (has_input (st_inputs st) id) eqn:E; cbn; [|split; [reflexivity|exact H]].
    split; [reflexivity|]. apply rep_set_vars; [exact H| |].
    + eapply touch_var_rep; [apply H|exact Ex].
    + intros y p j. unfold set_var. destruct (str_eqb y x); [|apply (rp_used _ _ H)]. intros E1. injection E1 as <- <-. apply has_input_in, E.
  - pose proof (tx_get_variable_ok d x (rep_rows_ok _ _ H)) as G. pose proof (rp_vars _ _ H) as (A & B & C). cbn [spec_call snd fst].
    destruct G as [(v & G & (r & Hr & Hn & Hh) & _)|[G N]]; rewrite (tx_bind_ok _ _ _ _ _ G); cbn; (split; [|exact H]).
    + assert (E : st_vars st x = Some (v, v_used r)) by (apply C; eauto). rewrite E. reflexivity.
    + destruct (st_vars st x) as [[q k]|] eqn:E; [|reflexivity]. apply C in E as (r & Hr & Hn & _). exfalso. eapply N; eauto.
  - cbn. split; [reflexivity|]. apply rep_set_vars; [exact H|apply clear_var_rep, H|].
    intros y p k. unfold set_var. destruct (str_eqb y x); [discriminate|apply (rp_used _ _ H)].
  - unfold tx_bind, tx_get_max, sql_meta_select. rewrite (rp_cap _ _ H). cbn. split; [reflexivity|exact H].
  - destruct (Z.ltb_spec n 1) as [Hn|Hn].
    + unfold tx_bind, tx_set_max, validate_max_history_size. cbn [spec_call]. rewrite (proj2 (Z.ltb_lt n 1) Hn). cbn. split; [reflexivity|exact H].
    + destruct (set_max_spec d st n H Hn) as (d' & E & R). rewrite (tx_bind_ok _ _ _ _ _ E). cbn [tx_ret tx_reply fst snd].
      cbn [spec_call] in *. destruct (Z.ltb_spec n 1); [lia|]. split; [reflexivity|exact R].
Qed.

(** opening *)
Definition created : database :=
  mkDb [(meta_MinimumVersion, 1%Z); (meta_Version, 1%Z); (meta_MaxHistorySize, 100%Z)] [] [(tag_Front, None); (tag_Back, None)] [].
Lemma open_empty : tx_open empty_db = Ok (None, created).
Proof. reflexivity. Qed.
Lemma created_rep : represents created first_store.
Proof.
  constructor; cbn; try reflexivity; try lia.
  - split; reflexivity.
  - constructor.
  - split; [constructor|]. split; [intros r []|]. intros x q id. split; [discriminate|intros (r & [] & _)].
  - discriminate.
Qed.
Lemma open_rep d st : represents d st -> tx_open d = Ok (last_id (st_inputs st), d).
Proof.
  intros H. destruct (rp_versions _ _ H) as [V1 V2]. pose proof (rp_cap _ _ H) as Hc. pose proof (rp_tags _ _ H) as Ht.
  unfold tx_open, tx_bind, sql_meta_insert_ignore, sql_meta_select, sql_tag_insert_ignore, sql_tag_select.
  repeat (rewrite ?V1, ?V2, ?Hc). cbv iota beta. change (Z.ltb CURRENT_DB_VERSION 1) with false. cbv iota beta.
  rewrite ?V1, ?V2, ?Hc. cbv iota beta.
  assert (T1 : zassoc tag_Front (d_tags d) = Some (last_id (st_inputs st))) by (rewrite Ht; reflexivity).
  assert (T2 : zassoc tag_Back (d_tags d) = Some (head_id (st_inputs st))) by (rewrite Ht; reflexivity).
  rewrite T1. cbv iota beta. rewrite T2. cbv iota beta. rewrite T1. reflexivity.
Qed.
