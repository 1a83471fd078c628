(** ProofsDamage3.v -- every call keeps a consistent file consistent; invariants of the file when programs share it. *)
From Verif Require Import Base Position Num TokenTypes Errors SavedData Variables InputHistory Token
  SyntaxTree Commands Calculate Editor Sessions Main Io Together Interleave SpecGrammar SpecEval SpecHistory SpecEditor SpecCalc SpecInterleave SpecDamage.
From Verif Require Import ProofsLex ProofsEval ProofsNum ProofsCalc ProofsCalc3 ProofsCalc7 ProofsCalc8 ProofsMain ProofsTogether ProofsKill3 ProofsInterleave ProofsInterleave2 ProofsInterleave3 ProofsDamage ProofsDamage2.
From Coq Require Import String Lia List.
Import ListNotations.
Local Open Scope nat_scope.
Local Open Scope list_scope.

Definition keeps (P : database -> Prop) {A} (t : tx A) : Prop := forall d a d', P d -> t d = Ok (a, d') -> P d'.
Lemma keeps_bind P A B (t : tx A) (f : A -> tx B) : keeps P t -> (forall a, keeps P (f a)) -> keeps P (tx_bind t f).
Proof. intros T F d b d' H. unfold tx_bind. destruct (t d) as [[a d1]|e|p] eqn:E; [|discriminate..]. apply F. eapply T; eauto. Qed.
Lemma keeps_ret P A (a : A) : keeps P (tx_ret a). Proof. intros d b d' H [= _ <-]. exact H. Qed.
Lemma keeps_fail P A e : keeps P (@tx_fail A e). Proof. intros d b d' H. discriminate. Qed.
Lemma keeps_same P A (t : tx A) : (forall d a d', t d = Ok (a, d') -> d' = d) -> keeps P t.
Proof. intros H d a d' Hd E. rewrite (H _ _ _ E). exact Hd. Qed.
Lemma keeps_call P A (t : tx A) sd : keeps P t -> P (sd_db sd) -> P (sd_db (fst (sd_call t sd))).
Proof.
  intros K H. unfold sd_call. destruct (sd_faults sd) as [|[|] fs]; cbn [fst sd_db]; try exact H; destruct (t (sd_db sd)) as [[a d]|e|p] eqn:E; cbn [fst sd_db]; try exact H; eapply K; eauto.
Qed.

(** ** Consistency *)
Lemma has_line_id d id : has_line d id <-> has_id (d_hist d) id = true.
Proof.
  rewrite has_id_in. unfold has_line, hist_ids. rewrite in_map_iff. split; intros (r & A & B); exists r; auto.
Qed.
Lemma fk_has h m t v o id : fk_ok h o = true -> o = Some id -> has_line (mkDb m h t v) id.
Proof. intros F ->. apply has_line_id. exact F. Qed.
Lemma zassoc_none {A} k (m : list (Z * A)) : zassoc k m = None -> ~ In k (map fst m).
Proof.
  induction m as [|[k' v] m IH]; [intros _ []|]. cbn [zassoc map fst]. destruct (Z.eqb_spec k k'); [discriminate|]. intros H [E|I]; [congruence|exact (IH H I)].
Qed.
Lemma zupdate_keys {A} k (v : A) m : map fst (zupdate k v m) = map fst m.
Proof. unfold zupdate. rewrite map_map. apply map_ext. intros [k' w]. cbn [fst]. destruct (Z.eqb k k'); reflexivity. Qed.
Lemma nodup_snoc {A} (l : list A) a : NoDup l -> ~ In a l -> NoDup (l ++ [a]).
Proof.
  induction l as [|b l IH]; intros H N; cbn [app]; [constructor; [intros []|constructor]|]. inversion H; subst. constructor; [|apply IH; [assumption|intros X; apply N; right; exact X]].
  intros X. apply in_app_iff in X as [X|[X|[]]]; [contradiction|]. apply N. left. congruence.
Qed.
Lemma has_line_hist d d' id : map h_id (d_hist d') = map h_id (d_hist d) -> has_line d id -> has_line d' id.
Proof. intros E. rewrite !has_line_id, !has_id_in. unfold hist_ids. rewrite E. auto. Qed.

Lemma meta_consistent d m : NoDup (map fst m) -> consistent d -> consistent (set_meta d m).
Proof. intros H (A & B & C & D & E & F & G). split; [exact H|]. auto 10. Qed.
Lemma ks_meta_ignore k v : keeps consistent (sql_meta_insert_ignore k v).
Proof.
  intros d a d' H. unfold sql_meta_insert_ignore. destruct (zassoc k (d_meta d)) eqn:E; intros X; apply ok_inj, pair_equal_spec in X as [_ <-]; [exact H|].
  apply meta_consistent; [|exact H]. rewrite map_app. apply nodup_snoc; [exact (proj1 H)|]. apply zassoc_none, E.
Qed.
Lemma ks_meta_replace k v : keeps consistent (sql_meta_insert_replace k v).
Proof.
  intros d a d' H. unfold sql_meta_insert_replace. destruct (zassoc k (d_meta d)) eqn:E; intros X; apply ok_inj, pair_equal_spec in X as [_ <-]; (apply meta_consistent; [|exact H]).
  - rewrite zupdate_keys. exact (proj1 H).
  - rewrite map_app. apply nodup_snoc; [exact (proj1 H)|]. apply zassoc_none, E.
Qed.
Lemma ks_meta_select P k : keeps P (sql_meta_select k).
Proof. apply keeps_same. intros d a d'. unfold sql_meta_select. destruct (zassoc _ _); [|discriminate]. intros [= _ <-]. reflexivity. Qed.
Lemma ks_tag_select P k : keeps P (sql_tag_select k).
Proof. apply keeps_same. intros d a d'. unfold sql_tag_select. destruct (zassoc _ _); [|discriminate]. intros [= _ <-]. reflexivity. Qed.
Lemma ks_not_null P t : keeps P t -> keeps P (not_null t).
Proof. intros H. unfold not_null. apply keeps_bind; [exact H|]. intros [z|]; [apply keeps_ret|apply keeps_fail]. Qed.
Lemma ks_hist_next P k : keeps P (sql_hist_next k).
Proof. apply keeps_same. intros d a d'. unfold sql_hist_next. destruct (find_hist _ _); [|discriminate]. intros [= _ <-]. reflexivity. Qed.
Lemma ks_tag_ignore k : keeps consistent (sql_tag_insert_ignore k).
Proof.
  intros d a d' H. unfold sql_tag_insert_ignore. destruct (zassoc k (d_tags d)) eqn:E; intros X; apply ok_inj, pair_equal_spec in X as [_ <-]; [exact H|].
  destruct H as (A & B & C & D & Eh & F & G). split; [exact A|]. split; [exact B|]. split.
  { cbn [set_tags d_tags]. rewrite map_app. apply nodup_snoc; [exact C|]. apply zassoc_none, E. }
  split; [exact D|]. split; [exact Eh|]. split; [|exact G]. intros k0 id Hi. cbn [set_tags d_tags] in Hi. apply in_app_iff in Hi as [Hi|[Hi|[]]]; [exact (F _ _ Hi)|congruence].
Qed.
Lemma ks_tag_update k v : keeps consistent (sql_tag_update k v).
Proof.
  intros d a d' H. unfold sql_tag_update. destruct (zassoc k (d_tags d)) eqn:E; [|intros X; apply ok_inj, pair_equal_spec in X as [_ <-]; exact H].
  destruct (fk_ok (d_hist d) v) eqn:Fk; [|discriminate]. intros X; apply ok_inj, pair_equal_spec in X as [_ <-].
  destruct H as (A & B & C & D & Eh & F & G). split; [exact A|]. split; [exact B|]. split; [cbn [set_tags d_tags]; rewrite zupdate_keys; exact C|].
  split; [exact D|]. split; [exact Eh|]. split; [|exact G]. intros k0 id Hi. cbn [set_tags d_tags] in Hi. unfold zupdate in Hi. apply in_map_iff in Hi as ([k1 w] & X & Hi). cbn [fst] in X.
  destruct (Z.eqb k k1); [|rewrite X in Hi; exact (F _ _ Hi)]. injection X as _ ->. apply has_line_id. exact Fk.
Qed.
Lemma fold_max_ge l : forall x y, (y <= x \/ exists z, In z l /\ y <= z)%Z -> (y <= fold_left Z.max l x)%Z.
Proof.
  induction l as [|b l IH]; intros x y H; cbn [fold_left]; [destruct H as [H|(z & [] & _)]; exact H|]. apply IH. destruct H as [H|(z & [<-|Hz] & H)]; [left; lia|left; lia|right; eauto].
Qed.
Lemma next_rowid_new h : ~ In (next_rowid h) (map h_id h).
Proof.
  unfold next_rowid, hist_ids. destruct (map h_id h) as [|x l]; [intros []|]. intros H.
  assert (K : (fold_left Z.max l x + 1 <= fold_left Z.max l x)%Z); [|lia]. apply fold_max_ge. destruct H as [<-|H]; [left; lia|right; exists (fold_left Z.max l x + 1)%Z; split; [exact H|lia]].
Qed.
Lemma ks_insert text o : keeps consistent (sql_hist_insert text o).
Proof.
  intros d a d' H. unfold sql_hist_insert. cbv zeta. destruct (fk_ok _ o) eqn:Fk; [|discriminate]. intros X; apply ok_inj, pair_equal_spec in X as [_ <-].
  destruct H as (A & B & C & D & E & F & G). set (n := mkHist (next_rowid (d_hist d)) text None o) in *.
  assert (Mono : forall id, has_line d id -> has_line (set_hist d (d_hist d ++ [n])) id) by (intros id (r & Hr & Hi); exists r; split; [apply in_app_iff; left; exact Hr|exact Hi]).
  split; [exact A|]. split; [cbn [set_hist d_hist]; rewrite map_app; apply nodup_snoc; [exact B|apply next_rowid_new]|]. split; [exact C|]. split; [exact D|]. split.
  { intros r id Hr Hi. cbn [set_hist d_hist] in Hr. apply in_app_iff in Hr as [Hr|[<-|[]]]; [apply Mono; exact (E _ _ Hr Hi)|]. cbn [n h_next h_prev] in Hi. destruct Hi as [Hi|Hi]; [discriminate|].
    apply has_line_id. cbn [set_hist d_hist]. subst o. exact Fk. }
  split; [intros k id Hk; apply Mono; exact (F _ _ Hk)|]. intros v Hv. apply Mono. exact (G _ Hv).
Qed.
Lemma hist_map_consistent d f : (forall r, h_id (f r) = h_id r) ->
  (forall r id, In r (d_hist d) -> h_next (f r) = Some id \/ h_prev (f r) = Some id -> (h_next r = Some id \/ h_prev r = Some id) \/ has_line d id) ->
  consistent d -> consistent (set_hist d (map f (d_hist d))).
Proof.
  intros Hf Hr (A & B & C & D & E & F & G). assert (I : map h_id (map f (d_hist d)) = map h_id (d_hist d)) by (rewrite map_map; apply map_ext; exact Hf).
  assert (Mono : forall id, has_line d id -> has_line (set_hist d (map f (d_hist d))) id) by (intros id; apply has_line_hist; exact I).
  split; [exact A|]. split; [cbn [set_hist d_hist]; rewrite I; exact B|]. split; [exact C|]. split; [exact D|]. split.
  { intros r id H1 H2. cbn [set_hist d_hist] in H1. apply in_map_iff in H1 as (r0 & <- & H1). apply Mono. destruct (Hr r0 id H1 H2) as [K|K]; [exact (E _ _ H1 K)|exact K]. }
  split; [intros k id Hk; apply Mono; exact (F _ _ Hk)|]. intros v Hv. apply Mono. exact (G _ Hv).
Qed.
Lemma ks_set_next i v : keeps consistent (sql_hist_set_next i v).
Proof.
  intros d a d' H. unfold sql_hist_set_next. destruct (has_id (d_hist d) i); [|intros X; apply ok_inj, pair_equal_spec in X as [_ <-]; exact H].
  destruct (has_id (d_hist d) v) eqn:E; [|discriminate]. intros X; apply ok_inj, pair_equal_spec in X as [_ <-]. apply hist_map_consistent; [| |exact H].
  - intros r. destruct (Z.eqb _ _); reflexivity.
  - intros r id Hr Hi. destruct (Z.eqb (h_id r) i); [|left; exact Hi]. cbn [h_next h_prev] in Hi. destruct Hi as [[= <-]|Hi]; [right; apply has_line_id, E|left; right; exact Hi].
Qed.
Lemma ks_clear_prev i : keeps consistent (sql_hist_clear_prev i).
Proof.
  intros d a d' H. unfold sql_hist_clear_prev. intros X; apply ok_inj, pair_equal_spec in X as [_ <-]. apply hist_map_consistent; [| |exact H].
  - intros r. destruct (Z.eqb _ _); reflexivity.
  - intros r id Hr Hi. left. destruct (Z.eqb (h_id r) i); [|exact Hi]. cbn [h_next h_prev] in Hi. destruct Hi as [Hi|Hi]; [left; exact Hi|discriminate].
Qed.
Lemma nodup_filter_map {A B} (f : A -> B) p l : NoDup (map f l) -> NoDup (map f (filter p l)).
Proof.
  induction l as [|a l IH]; [constructor|]. cbn [map filter]. intros H. inversion H as [|x y N K]; subst. destruct (p a); [|exact (IH K)]. cbn [map]. constructor; [|exact (IH K)].
  intros X. apply N. apply in_map_iff in X as (b & <- & Hb). apply filter_In in Hb as [Hb _]. apply in_map. exact Hb.
Qed.
Lemma ks_delete i : keeps consistent (sql_hist_delete i).
Proof.
  intros d a d' H. unfold sql_hist_delete. cbv zeta. set (h := filter _ (d_hist d)). destruct (_ && _)%bool eqn:R; [discriminate|]. intros X; apply ok_inj, pair_equal_spec in X as [_ <-].
  destruct H as (A & B & C & D & E & F & G). destruct (has_id (d_hist d) i) eqn:Hi; cbn [andb] in R.
  - apply Bool.orb_false_iff in R as [R1 R2].
    assert (Keep : forall id, id <> i -> has_line d id -> has_line (mkDb (d_meta d) h (d_tags d) (filter (fun v => negb (Z.eqb (v_used v) i)) (d_vars d))) id).
    { intros id Ne (r & Hr & Er). exists r. split; [|exact Er]. cbn [d_hist]. apply filter_In. split; [exact Hr|]. destruct (Z.eqb_spec (h_id r) i); [congruence|reflexivity]. }
    split; [exact A|]. split; [apply nodup_filter_map; exact B|]. split; [exact C|]. split; [apply nodup_filter_map; exact D|]. split; [|split].
    + intros r id Hr Hn. cbn [d_hist] in Hr. apply Keep; [|apply filter_In in Hr as [Hr _]; exact (E _ _ Hr Hn)]. intros ->.
      assert (Y : existsb (fun r0 => refers i (h_next r0) || refers i (h_prev r0)) h = true); [|congruence]. apply existsb_exists. exists r. split; [exact Hr|].
      destruct Hn as [-> | ->]; cbn [refers]; rewrite Z.eqb_refl; [reflexivity|apply Bool.orb_true_r].
    + intros k id Hk. cbn [d_tags] in Hk. apply Keep; [|exact (F _ _ Hk)]. intros ->.
      assert (Y : existsb (fun t => refers i (snd t)) (d_tags d) = true); [|congruence]. apply existsb_exists. exists (k, Some i). split; [exact Hk|]. cbn. apply Z.eqb_refl.
    + intros v Hv. cbn [d_vars] in Hv. apply filter_In in Hv as [Hv Nv]. apply Keep; [|exact (G _ Hv)]. intros X. rewrite X, Z.eqb_refl in Nv. discriminate.
  - assert (Same : h = d_hist d).
    { unfold h. clear - Hi. assert (N : forall r, In r (d_hist d) -> Z.eqb (h_id r) i = false).
      { intros r Hr. destruct (Z.eqb_spec (h_id r) i) as [<-|]; [|reflexivity]. exfalso. rewrite (proj2 (has_id_in _ _)) in Hi; [discriminate|]. apply in_map. exact Hr. }
      induction (d_hist d) as [|r l IH]; [reflexivity|]. cbn [filter]. rewrite (N r (or_introl eq_refl)). cbn [negb]. f_equal. apply IH.
      - cbn in Hi. apply Bool.orb_false_iff in Hi as [_ Hi]. exact Hi.
      - intros r0 Hr0. apply N. right. exact Hr0. }
    rewrite Same. split; [exact A|]. split; [exact B|]. split; [exact C|]. split; [exact D|]. split; [exact E|]. split; [exact F|exact G].
Qed.
Lemma ks_count P : keeps P sql_hist_count. Proof. apply keeps_same. intros d a d' [= _ <-]. reflexivity. Qed.
Lemma ks_evict max fuel : keeps consistent (tx_evict_loop fuel max).
Proof.
  induction fuel as [|f IH]; [intros d a d' H X; discriminate X|]. cbn [tx_evict_loop]. apply keeps_bind; [apply ks_count|]. intros size. destruct (Z.leb size max); [apply keeps_ret|].
  apply keeps_bind; [apply ks_not_null, ks_tag_select|]. intros ob. apply keeps_bind; [apply ks_not_null, ks_hist_next|]. intros nb. apply keeps_bind; [apply ks_clear_prev|]. intros _.
  apply keeps_bind; [apply ks_tag_update|]. intros _. apply keeps_bind; [apply ks_delete|]. intros _. exact IH.
Qed.
Lemma ks_enforce : keeps consistent tx_enforce.
Proof.
  unfold tx_enforce. apply keeps_bind; [apply ks_meta_select|]. intros max. destruct (validate_max_history_size max); [apply keeps_fail|]. intros d. apply ks_evict.
Qed.
Lemma ks_add text : keeps consistent (tx_add text).
Proof.
  unfold tx_add. apply keeps_bind; [apply ks_tag_select|]. intros o. apply keeps_bind; [apply ks_insert|]. intros id. apply keeps_bind; [apply ks_tag_update|]. intros _.
  apply keeps_bind; [destruct o; [apply ks_set_next|apply ks_tag_update]|]. intros _. apply keeps_bind; [apply ks_enforce|]. intros _. apply keeps_ret.
Qed.
Lemma vars_consistent d l : NoDup (map v_name l) -> (forall v, In v l -> has_line d (v_used v)) -> consistent d -> consistent (set_vars d l).
Proof. intros N K (A & B & C & D & E & F & G). split; [exact A|]. split; [exact B|]. split; [exact C|]. split; [exact N|]. split; [exact E|]. split; [exact F|exact K]. Qed.
Lemma ks_set_variable x v id : keeps consistent (tx_set_variable x v id).
Proof.
  intros d a d' H. unfold tx_set_variable, to_str_radix. change (radix_ok VARIABLE_STORAGE_RADIX) with true. cbn [bind]. unfold sql_var_insert. cbn [v_used v_name].
  destruct (has_id (d_hist d) id) eqn:E; [|discriminate]. intros X; apply ok_inj, pair_equal_spec in X as [_ <-]. pose proof H as (_ & _ & _ & D & _ & _ & G). apply vars_consistent; [| |exact H].
  - rewrite map_app. apply nodup_snoc; [apply nodup_filter_map; exact D|]. intros X. apply in_map_iff in X as (r & En & Hr). apply filter_In in Hr as [_ Hr]. cbn [v_name] in En. rewrite En, str_eqb_refl in Hr. discriminate.
  - intros r Hr. apply in_app_iff in Hr as [Hr|[<-|[]]]; [apply filter_In in Hr as [Hr _]; exact (G _ Hr)|]. apply has_line_id. exact E.
Qed.
Lemma ks_touch x id : keeps consistent (tx_touch_variable x id).
Proof.
  intros d a d' H. unfold tx_touch_variable, sql_var_touch. destruct (existsb _ _); [|intros X; apply ok_inj, pair_equal_spec in X as [_ <-]; exact H].
  destruct (has_id (d_hist d) id) eqn:E; [|discriminate]. intros X; apply ok_inj, pair_equal_spec in X as [_ <-]. pose proof H as (_ & _ & _ & D & _ & _ & G). apply vars_consistent; [| |exact H].
  - rewrite map_map. erewrite map_ext; [exact D|]. intros r. destruct (str_eqb (v_name r) x); reflexivity.
  - intros r Hr. apply in_map_iff in Hr as (r0 & <- & Hr). destruct (str_eqb (v_name r0) x); [apply has_line_id; exact E|exact (G _ Hr)].
Qed.
Lemma ks_clear x : keeps consistent (tx_clear_variable x).
Proof.
  intros d a d' H. unfold tx_clear_variable, sql_var_delete. intros X; apply ok_inj, pair_equal_spec in X as [_ <-]. pose proof H as (_ & _ & _ & D & _ & _ & G). apply vars_consistent; [| |exact H].
  - apply nodup_filter_map. exact D.
  - intros r Hr. apply filter_In in Hr as [Hr _]. exact (G _ Hr).
Qed.
Lemma ks_get P x : keeps P (tx_get_variable x).
Proof.
  apply keeps_same. intros d a d' E. destruct (tx_get_reading d x) as (o & Eo & _). rewrite Eo in E. destruct o; try discriminate E. cbn [bind] in E. apply ok_inj, pair_equal_spec in E as [_ <-]. reflexivity.
Qed.
Lemma ks_set_max n : keeps consistent (tx_set_max n).
Proof. unfold tx_set_max. destruct (validate_max_history_size n); [apply keeps_fail|]. apply keeps_bind; [apply ks_meta_replace|]. intros _. apply ks_enforce. Qed.
Lemma ks_open : keeps consistent tx_open.
Proof.
  unfold tx_open. apply keeps_bind; [apply ks_meta_ignore|]. intros _. apply keeps_bind; [apply ks_meta_select|]. intros v. destruct (Z.ltb CURRENT_DB_VERSION v); [apply keeps_fail|].
  apply keeps_bind; [apply ks_meta_ignore|]. intros _. apply keeps_bind; [apply ks_meta_ignore|]. intros _. apply keeps_bind; [apply ks_tag_ignore|]. intros _. apply keeps_bind; [apply ks_tag_ignore|]. intros _. apply ks_tag_select.
Qed.

(** ** Programs sharing the file *)
Definition kept_by_calls (P : database -> Prop) : Prop :=
  keeps P tx_open /\ (forall l, keeps P (tx_add l)) /\ (forall x v id, keeps P (tx_set_variable x v id)) /\ (forall x id, keeps P (tx_touch_variable x id)) /\
  (forall x, keeps P (tx_clear_variable x)) /\ (forall n, keeps P (tx_set_max n)).
Lemma consistent_kept : kept_by_calls consistent.
Proof. split; [exact ks_open|]. split; [exact ks_add|]. split; [exact ks_set_variable|]. split; [exact ks_touch|]. split; [exact ks_clear|exact ks_set_max]. Qed.
Lemma prev_file sd : sd_db (fst (get_prev_input_history sd)) = sd_db sd.
Proof.
  unfold get_prev_input_history. destruct (sd_pos sd) as [id|]; [|reflexivity]. unfold sd_call.
  destruct (sd_faults sd) as [|[|] fs]; cbn; try reflexivity; destruct (find_hist (d_hist (sd_db sd)) id); reflexivity.
Qed.
Lemma perform_kept P c sd : kept_by_calls P -> P (sd_db sd) -> P (sd_db (fst (perform c sd))).
Proof.
  intros (Ko & Ka & Ks & Kt & Kc & Km) H. destruct c; cbn [perform fst]; cbv zeta; cbn [fst]; try exact H; try (rewrite prev_file; exact H); unfold add_to_input_history, set_variable, touch_variable, get_variable, clear_variable, get_max_history_size, set_max_history_size; (apply keeps_call; [|exact H]); auto.
  - apply ks_get.
  - apply ks_meta_select.
Qed.
Lemma open_kept P faults d : keeps P tx_open -> P d -> P (fst (sd_open faults d)).
Proof. intros K H. unfold sd_open. pose proof (keeps_call P _ tx_open (mkSD d None faults) K H) as X. destruct (sd_call tx_open _) as [sd [o|e|p]]; exact X. Qed.

(** programs without the database keep to themselves *)
Definition settled_room (w : room) : Prop :=
  forall i s, r_seat w i = Some s -> match s with Resting u e => u_db u = None -> e = Running -> ui_good u | Working u _ => u_db u <> None end.
Lemma answer_line_db pr tm u ans : u_db u <> None -> match fst (answer_line pr tm u ans) with Resting v e => u_db v = None -> e = Running -> ui_good v | Working v _ => u_db v <> None end.
Proof.
  intros N. destruct ans as [[[a h] vars] r]. unfold answer_line. destruct (render r) as [text|e|p]; cbn [fst]; try (intros X; cbn in X; destruct (N X)).
  match goal with |- context [start_line pr tm ?u0] => pose proof (start_line_db pr tm u0) as D; destruct (start_line pr tm u0) as [[u2 out] st] end. cbn [fst] in *. intros X. rewrite D in X. destruct (N X).
Qed.
Lemma go_on_db pr tm u t : u_db u <> None -> match fst (go_on pr tm u t) with Resting v e => u_db v = None -> e = Running -> ui_good v | Working v _ => u_db v <> None end.
Proof. intros N. destruct t; [apply answer_line_db, N|exact N]. Qed.
Lemma room_kept P pr ord x tm tn w : kept_by_calls P -> (forall i n, iterates (ord i n)) -> proper_turn tn -> settled_room w -> P (r_file w) ->
  settled_room (fst (room_step pr ord x tm tn w)) /\ P (r_file (fst (room_step pr ord x tm tn w))).
Proof.
  intros K Ho Pt S H.
  assert (Seat : forall file i s, match s with Resting u e => u_db u = None -> e = Running -> ui_good u | Working u _ => u_db u <> None end -> settled_room (mkRoom file (seated (r_seat w) i s))).
  { intros file i s Hs j s' E. cbn [r_seat] in E. destruct (Nat.eq_dec j i) as [->|N]; [rewrite seated_same in E; injection E as <-; exact Hs|]. rewrite seated_other in E by exact N. exact (S _ _ E). }
  destruct tn as [i a wanted|i ev|i]; cbn [room_step].
  - destruct (r_seat w i) eqn:Sk; [split; assumption|]. cbn [proper_turn] in Pt. destruct wanted as [faults|].
    + pose proof (open_kept P faults _ (proj1 K) H) as O. destruct (sd_open faults (r_file w)) as [file [sd|e|p]]; cbn [fst] in O; [|split; [exact S|exact O]..].
      pose proof (start_db pr (tm i) a (Some sd)) as D. destruct (interactive_start pr (tm i) a (Some sd)) as [[u out] st]. cbn [fst] in *. split; [apply Seat; intros X; congruence|exact O].
    + pose proof (start_good pr (tm i) a None Pt ltac:(discriminate)) as G. destruct (interactive_start pr (tm i) a None) as [[u out] st]. cbn [fst] in *. split; [apply Seat; auto|exact H].
  - destruct (r_seat w i) as [[u e|u t]|] eqn:Sk; [|split; assumption..]. destruct e; try (split; assumption). pose proof (S i _ Sk) as Su. cbv beta iota in Su.
    destruct (u_db u) as [sd|] eqn:Eu.
    + destruct (enter ev) eqn:En.
      * assert (Sb : match fst (begin_line pr (ord i) x (tm i) (with_file (r_file w) u)) with Resting v e => u_db v = None -> e = Running -> ui_good v | Working v _ => u_db v <> None end).
        { assert (N : u_db (with_file (r_file w) u) <> None) by (intros X; apply with_file_db in X; congruence). unfold begin_line.
          destruct (display _ _ _ _ _) as [[l1 o1]|e|p]; cbn [fst]; [|intros X; destruct (N X)..]. destruct (current_line _) as [line|e|p]; cbn [fst]; [|intros X; destruct (N X)..].
          match goal with |- context [go_on pr (tm i) ?v ?t] => pose proof (go_on_db pr (tm i) v t N) as G; destruct (go_on pr (tm i) v t) as [s out] end. exact G. }
        destruct (begin_line _ _ _ _ _) as [s out]. cbn [fst] in *. split; [apply Seat; exact Sb|exact H].
      * assert (Ne : forall mods, ev <> EvKey KEnter mods) by (intros mods ->; discriminate En).
        pose proof (quiet_step pr (ord i) x (tm i) ev (with_file (r_file w) u) Ne) as Q. destruct (ui_step pr (ord i) x (tm i) ev (with_file (r_file w) u)) as [[u' out] st]. cbn [fst] in *.
        unfold same_file in Q. unfold with_file in Q. rewrite Eu in Q. cbn [u_db] in Q. destruct (u_db u') as [sd'|] eqn:Eu'; [|destruct Q].
        split; [apply Seat; intros X; congruence|]. cbn [r_file]. unfold file_of. rewrite Eu'. cbn [sd_db] in Q. rewrite Q. exact H.
    + specialize (Su eq_refl eq_refl). rewrite (nofile_with u _ Eu).
      assert (Go : forall X, X = (let '(u', out, st) := ui_step pr (ord i) x (tm i) ev u in (mkRoom (file_of (r_file w) u') (seated (r_seat w) i (Resting u' (ending_of st))), out)) ->
        settled_room (fst X) /\ P (r_file (fst X))).
      { intros X ->. pose proof (ui_step_good pr (ord i) x (tm i) ev u (Ho i) Su) as G. pose proof (ui_step_none pr (ord i) x (tm i) ev u (Ho i) Su Eu) as Nn.
        destruct (ui_step pr (ord i) x (tm i) ev u) as [[u' out] st]. cbn [fst] in *. split; [apply Seat; auto|]. cbn [r_file]. unfold file_of. rewrite Nn. exact H. }
      destruct (enter ev); apply Go; reflexivity.
  - destruct (r_seat w i) as [[u e|u [ans|c k]]|] eqn:Sk; try (split; assumption). destruct (u_db u) as [sd|] eqn:Eu; [|split; assumption].
    pose proof (perform_kept P c (mkSD (r_file w) (sd_pos sd) (sd_faults sd)) K H) as X. destruct (perform c _) as [sd' r]. cbn [fst] in X.
    pose proof (go_on_db pr (tm i) (with_db u (Some sd')) (k r) ltac:(discriminate)) as G. destruct (go_on _ _ _ _) as [s out]. cbn [fst] in *. split; [apply Seat; exact G|exact X].
Qed.
Lemma files_kept P pr ord x tm turns d : kept_by_calls P -> (forall i n, iterates (ord i n)) -> Forall proper_turn turns -> P d ->
  Forall P (room_files pr ord x tm turns (empty_room d)).
Proof.
  intros K Ho Pt H. assert (S : settled_room (empty_room d)) by (intros i s E; discriminate E). assert (H' : P (r_file (empty_room d))) by exact H. revert S H'. generalize (empty_room d).
  induction turns as [|tn turns IH]; intros w S Hw; cbn [room_files]; constructor; try exact Hw; [constructor|]. inversion Pt; subst.
  destruct (room_kept P pr ord x tm tn w K Ho ltac:(assumption) S Hw) as (S' & H'). apply IH; assumption.
Qed.

(** ** Recording in a consistent file with room *)
Lemma zassoc_nodup {A} k (m : list (Z * A)) v : NoDup (map fst m) -> In (k, v) m -> zassoc k m = Some v.
Proof.
  induction m as [|[k' w] m IH]; [intros _ []|]. cbn [map fst zassoc]. intros N H. inversion N; subst. destruct (Z.eqb_spec k k') as [->|Ne].
  - destruct H as [[= ->]|H]; [reflexivity|]. exfalso. match goal with X : ~ In k' _ |- _ => apply X end. change k' with (fst (k', v)). apply in_map. exact H.
  - destruct H as [[= -> _]|H]; [congruence|]. apply IH; assumption.
Qed.
Lemma add_room text d c front back : consistent d -> In (meta_MaxHistorySize, c) (d_meta d) -> (Z.of_nat (List.length (d_hist d)) < c)%Z ->
  In (tag_Front, front) (d_tags d) -> In (tag_Back, back) (d_tags d) ->
  exists id d', tx_add text d = Ok (id, d') /\ map h_id (d_hist d') = map h_id (d_hist d) ++ [id] /\ map h_input (d_hist d') = map h_input (d_hist d) ++ [text] /\ d_vars d' = d_vars d /\ d_meta d' = d_meta d.
Proof.
  intros C Cm L Tf Tb. pose proof C as (A & B & Ct & D & E & F & G). apply (zassoc_nodup _ _ _ A) in Cm. pose proof Tf as Tf'. apply (zassoc_nodup _ _ _ Ct) in Tf. apply (zassoc_nodup _ _ _ Ct) in Tb.
  unfold tx_add. unfold tx_bind at 1, sql_tag_select. rewrite Tf. unfold tx_bind at 1, sql_hist_insert. cbv zeta. set (i := next_rowid (d_hist d)). set (h := d_hist d ++ [mkHist i text None front]).
  assert (Fk : fk_ok h front = true).
  { destruct front as [f|]; [|reflexivity]. cbn [fk_ok]. destruct (F _ _ Tf') as (r & Hr & Hi). apply has_id_in. unfold h, hist_ids. apply in_map_iff. exists r. split; [exact Hi|apply in_app_iff; left; exact Hr]. }
  rewrite Fk. unfold tx_bind at 1, sql_tag_update. cbn [set_hist d_tags d_hist]. rewrite Tf.
  assert (Hi : has_id h i = true) by (apply has_id_in; unfold h, hist_ids; rewrite map_app; apply in_app_iff; right; left; reflexivity).
  cbn [fk_ok]. rewrite Hi.
  assert (En : forall d3, d_meta d3 = d_meta d -> List.length (d_hist d3) = S (List.length (d_hist d)) -> tx_enforce d3 = Ok (tt, d3)).
  { intros d3 M3 L3. unfold tx_enforce, tx_bind, tx_get_max, sql_meta_select. rewrite M3, Cm. unfold validate_max_history_size. destruct (Z.ltb_spec c 1); [lia|].
    rewrite L3. cbn [tx_evict_loop]. unfold tx_bind at 1, sql_hist_count. rewrite L3. destruct (Z.leb_spec (Z.of_nat (S (List.length (d_hist d)))) c); [reflexivity|lia]. }
  destruct front as [f|].
  - unfold tx_bind at 1, sql_hist_set_next. cbn [set_tags set_hist d_hist]. cbn [fk_ok] in Fk. rewrite Fk, Hi. unfold tx_bind at 1. rewrite En; [|reflexivity|cbn; rewrite map_length; unfold h; rewrite app_length; cbn; lia].
    eexists _, _. split; [reflexivity|]. cbn [set_hist set_tags d_hist d_vars d_meta]. rewrite !map_map.
    split; [transitivity (map h_id h); [apply map_ext; intros r; destruct (Z.eqb _ _); reflexivity|unfold h; rewrite map_app; reflexivity]|].
    split; [transitivity (map h_input h); [apply map_ext; intros r; destruct (Z.eqb _ _); reflexivity|unfold h; rewrite map_app; reflexivity]|]. auto.
  - unfold tx_bind at 1. cbn [set_tags set_hist d_hist d_tags]. rewrite zassoc_update. change (Z.eqb tag_Back tag_Front) with false. cbv iota. rewrite Tb. cbn [fk_ok]. rewrite Hi. unfold tx_bind at 1.
    rewrite En; [|reflexivity|cbn; unfold h; rewrite app_length; cbn; lia]. eexists _, _. split; [reflexivity|]. cbn [set_hist set_tags d_hist d_vars d_meta]. unfold h. rewrite !map_app. auto.
Qed.
Lemma open_present d front d' : tx_open d = Ok (front, d') ->
  (exists f, In (tag_Front, f) (d_tags d')) /\ (exists b, In (tag_Back, b) (d_tags d')) /\ exists c, In (meta_MaxHistorySize, c) (d_meta d').
Proof.
  unfold tx_open. unfold tx_bind at 1. destruct (sql_meta_insert_ignore meta_MinimumVersion MINIMUM_COMPATIBLE_DB_VERSION d) as [[u1 d1]|e|p]; [|discriminate..].
  unfold tx_bind at 1. destruct (sql_meta_select meta_MinimumVersion d1) as [[v d2]|e|p]; [|discriminate..]. destruct (Z.ltb CURRENT_DB_VERSION v); [discriminate|].
  unfold tx_bind at 1. destruct (sql_meta_insert_ignore meta_Version CURRENT_DB_VERSION d2) as [[u3 d3]|e|p]; [|discriminate..].
  unfold tx_bind at 1. destruct (sql_meta_insert_ignore meta_MaxHistorySize DEFAULT_MAX_HISTORY_SIZE d3) as [[u4 d4]|e|p] eqn:E4; [|discriminate..].
  assert (C4 : exists c, In (meta_MaxHistorySize, c) (d_meta d4)).
  { revert E4. unfold sql_meta_insert_ignore. destruct (zassoc meta_MaxHistorySize (d_meta d3)) as [c|] eqn:Z0; intros X; apply ok_inj, pair_equal_spec in X as [_ <-].
    - exists c. apply zassoc_in. exact Z0.
    - exists DEFAULT_MAX_HISTORY_SIZE. cbn [set_meta d_meta]. apply in_app_iff. right. left. reflexivity. }
  assert (Tg : forall k d0 u d1', sql_tag_insert_ignore k d0 = Ok (u, d1') -> (exists f, In (k, f) (d_tags d1')) /\ (forall kv, In kv (d_tags d0) -> In kv (d_tags d1')) /\ d_meta d1' = d_meta d0).
  { intros k d0 u d1'. unfold sql_tag_insert_ignore. destruct (zassoc k (d_tags d0)) as [f|] eqn:Z0; intros X; apply ok_inj, pair_equal_spec in X as [_ <-].
    - split; [exists f; apply zassoc_in; exact Z0|auto].
    - cbn [set_tags d_tags d_meta]. split; [exists None; apply in_app_iff; right; left; reflexivity|]. split; [intros kv H; apply in_app_iff; left; exact H|reflexivity]. }
  unfold tx_bind at 1. destruct (sql_tag_insert_ignore tag_Front d4) as [[u5 d5]|e|p] eqn:E5; [|discriminate..]. destruct (Tg _ _ _ _ E5) as ((f & Hf) & K5 & M5).
  unfold tx_bind at 1. destruct (sql_tag_insert_ignore tag_Back d5) as [[u6 d6]|e|p] eqn:E6; [|discriminate..]. destruct (Tg _ _ _ _ E6) as ((b & Hb) & K6 & M6).
  intros X. assert (d' = d6) as -> by (revert X; unfold sql_tag_select; destruct (zassoc _ _); [|discriminate]; intros X; apply ok_inj, pair_equal_spec in X as [_ <-]; reflexivity).
  split; [exists f; apply K6, Hf|]. split; [exists b; exact Hb|]. rewrite M6, M5. exact C4.
Qed.
