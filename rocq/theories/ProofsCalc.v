(** ProofsCalc.v -- the effect of the database calls on saved variables. *)
From Verif Require Import Base Position Num TokenTypes Errors Token Operations SavedData Variables InputHistory
                          SyntaxTree Commands Calculate SpecGrammar SpecEval SpecHistory SpecCalc.
From Verif Require Import ProofsEval ProofsDb ProofsDb2 ProofsDb4.
From Coq Require Import String Permutation.
Local Open Scope nat_scope.
Local Open Scope list_scope.

(** ** Rows up to who used them last *)
Definition strip (r : var_row) := (v_name r, v_numer r, v_denom r).
Definition same_rows (d d' : database) : Prop := map strip (d_vars d) = map strip (d_vars d').
Lemma strip_holds r r' v : strip r = strip r' -> row_holds r v -> row_holds r' v.
Proof. unfold strip, row_holds. intros E. injection E as A B C. rewrite B, C. auto. Qed.
Lemma same_rows_in d d' r : same_rows d d' -> In r (d_vars d) -> exists r', In r' (d_vars d') /\ strip r = strip r'.
Proof.
  intros E H. apply (in_map strip) in H. rewrite E in H. apply in_map_iff in H as (r' & H1 & H2). exists r'. auto.
Qed.
Lemma same_rows_sym d d' : same_rows d d' -> same_rows d' d.
Proof. unfold same_rows. congruence. Qed.
Lemma same_rows_disk d d' x v : same_rows d d' -> on_disk d x v -> on_disk d' x v.
Proof.
  intros E (r & Hr & Hn & Hh). destruct (same_rows_in _ _ _ E Hr) as (r' & Hr' & S). exists r'. split; [exact Hr'|].
  split; [|eapply strip_holds; eauto]. unfold strip in S. congruence.
Qed.
Lemma same_rows_not d d' x : same_rows d d' -> not_on_disk d x -> not_on_disk d' x.
Proof.
  intros E H r' Hr Hn. destruct (same_rows_in _ _ _ (same_rows_sym _ _ E) Hr) as (r & Hr2 & S). apply (H r Hr2). unfold strip in S. congruence.
Qed.
Lemma same_rows_ok d d' : same_rows d d' -> rows_ok d -> rows_ok d'.
Proof.
  intros E (H1 & H2). assert (N : map v_name (d_vars d') = map v_name (d_vars d)).
  { pose proof (f_equal (map (fun t => fst (fst t))) E) as F. rewrite !map_map in F. symmetry. exact F. }
  split; [rewrite N; exact H1|]. intros r Hr. destruct (same_rows_in _ _ _ (same_rows_sym _ _ E) Hr) as (r0 & Hr0 & S).
  destruct (H2 r0 Hr0) as (v & Hv). exists v. eapply strip_holds; [symmetry; exact S|exact Hv].
Qed.

(** ** One call: the rows it leaves *)
Lemma sd_call_cases {A} (m : tx A) sd sd' o : sd_call m sd = (sd', o) ->
  sd_pos sd' = sd_pos sd /\ (exists consumed, sd_faults sd = consumed ++ sd_faults sd') /\
  ((exists a, o = Ok a /\ m (sd_db sd) = Ok (a, sd_db sd')) \/
   (sd_db sd' = sd_db sd /\ (exists e, o = Err e) ) \/ (sd_db sd' = sd_db sd /\ exists p, o = Panic p /\ m (sd_db sd) = Panic p)).
Proof.
  unfold sd_call. destruct (sd_faults sd) as [|[|] fs] eqn:F; intros E.
  - destruct (m (sd_db sd)) as [[a d']|e|p] eqn:M; apply pair_equal_spec in E as [<- <-]; cbn [sd_db sd_pos sd_faults tl];
      (split; [reflexivity|]); (split; [exists []; try rewrite F; reflexivity|]); eauto 6.
  - apply pair_equal_spec in E as [<- <-]; cbn [sd_db sd_pos sd_faults tl]. split; [reflexivity|]. split; [exists [true]; try rewrite F; reflexivity|]. right; left; eauto.
  - destruct (m (sd_db sd)) as [[a d']|e|p] eqn:M; apply pair_equal_spec in E as [<- <-]; cbn [sd_db sd_pos sd_faults tl];
      (split; [reflexivity|]); (split; [exists [false]; try rewrite F; reflexivity|]); eauto 6.
Qed.

Lemma touch_rows x id d d' : sql_var_touch x id d = Ok (tt, d') ->
  same_rows d d' /\ d_hist d' = d_hist d /\ d_meta d' = d_meta d /\ d_tags d' = d_tags d.
Proof.
  unfold sql_var_touch. destruct (existsb _ _); [|intros E; apply ok_inj, pair_equal_spec in E as [_ <-]; repeat split].
  destruct (has_id _ _); [|discriminate]. intros E; apply ok_inj, pair_equal_spec in E as [_ <-]. split; [|repeat split].
  unfold same_rows. cbn [set_vars d_vars]. rewrite map_map. apply map_ext. intros r. destruct (str_eqb (v_name r) x); reflexivity.
Qed.
Lemma touch_never_panics x id d p : sql_var_touch x id d <> Panic p.
Proof. unfold sql_var_touch. destruct (existsb _ _); [destruct (has_id _ _)|]; discriminate. Qed.

Lemma filter_disk d d' keep x v : d_vars d' = filter keep (d_vars d) -> on_disk d' x v -> on_disk d x v.
Proof. intros E (r & Hr & H). rewrite E in Hr. apply filter_In in Hr as [Hr _]. exists r. auto. Qed.
Lemma filter_rows_ok d d' keep : d_vars d' = filter keep (d_vars d) -> rows_ok d -> rows_ok d'.
Proof.
  intros E (A & B). split; rewrite E; [apply nodup_filter_names; exact A|]. intros r Hr. apply filter_In in Hr as [Hr _]. auto.
Qed.
Lemma not_on_disk_iff d x : rows_ok d -> (not_on_disk d x <-> forall v, ~ on_disk d x v).
Proof.
  intros (_ & B). split.
  - intros H v (r & Hr & Hn & _). exact (H r Hr Hn).
  - intros H r Hr Hn. destruct (B r Hr) as (v & Hv). apply (H v). exists r. auto.
Qed.

Lemma clear_rows x d d' : sql_var_delete x d = Ok (tt, d') -> rows_ok d ->
  rows_ok d' /\ not_on_disk d' x /\ (forall y v, y <> x -> (on_disk d y v <-> on_disk d' y v)) /\
  d_hist d' = d_hist d /\ d_meta d' = d_meta d /\ d_tags d' = d_tags d.
Proof.
  unfold sql_var_delete. intros E Hok; apply ok_inj, pair_equal_spec in E as [_ <-].
  assert (F : d_vars (set_vars d (filter (fun v => negb (str_eqb (v_name v) x)) (d_vars d))) = filter (fun v => negb (str_eqb (v_name v) x)) (d_vars d)) by reflexivity.
  split; [eapply filter_rows_ok; [exact F|exact Hok]|]. split; [|split; [|repeat split]].
  - intros r Hr Hn. rewrite F in Hr. apply filter_In in Hr as [_ Hr]. apply negb_true_iff, str_eqb_false in Hr. congruence.
  - intros y v Hy. split; [|apply (filter_disk _ _ _ _ _ F)]. intros (r & Hr & Hn & Hh). exists r. split; [|auto]. rewrite F. apply filter_In.
    split; [exact Hr|]. apply negb_true_iff, str_eqb_false. congruence.
Qed.

Lemma set_rows x q id d d' : tx_set_variable x q id d = Ok (tt, d') -> rows_ok d -> canon q ->
  rows_ok d' /\ (forall v, on_disk d' x v <-> v = q) /\ (forall y v, y <> x -> (on_disk d y v <-> on_disk d' y v)) /\
  d_hist d' = d_hist d /\ d_meta d' = d_meta d /\ d_tags d' = d_tags d.
Proof.
  unfold tx_set_variable. change (@to_str_radix runtime_error (Qnum q) VARIABLE_STORAGE_RADIX) with (@Ok runtime_error _ (show_Z (Qnum q))).
  change (@to_str_radix runtime_error (Zpos (Qden q)) VARIABLE_STORAGE_RADIX) with (@Ok runtime_error _ (show_Z (Zpos (Qden q)))).
  cbn [bind]. unfold sql_var_insert. cbn [v_used v_name]. destruct (has_id (d_hist d) id); [|discriminate].
  intros E Hok Cq; apply ok_inj, pair_equal_spec in E as [_ <-].
  set (row := mkVar x (show_Z (Qnum q)) (show_Z (Zpos (Qden q))) id). set (keep := fun v => negb (str_eqb (v_name v) x)).
  assert (Hrow : row_holds row q) by (apply row_holds_show; split; [exact Cq|split; reflexivity]).
  assert (R : rows_ok (set_vars d (filter keep (d_vars d) ++ [row]))).
  { destruct Hok as (A & B). split; cbn [set_vars d_vars].
    - rewrite map_app. apply nodup_snoc; [apply nodup_filter_names; exact A|]. intros I. apply in_map_iff in I as (r & Hn & Hr).
      apply filter_In in Hr as [_ Hr]. apply negb_true_iff, str_eqb_false in Hr. apply Hr. exact Hn.
    - intros r Hr. apply in_app_iff in Hr as [Hr|[<-|[]]]; [|eauto]. apply filter_In in Hr as [Hr _]. auto. }
  assert (Hin : on_disk (set_vars d (filter keep (d_vars d) ++ [row])) x q).
  { exists row. cbn [set_vars d_vars]. split; [apply in_app_iff; right; left; reflexivity|]. auto. }
  split; [exact R|]. split; [|split; [|repeat split]].
  - intros v. split; [intros H; eapply on_disk_inj; eauto|intros ->; exact Hin].
  - intros y v Hy. split; intros (r & Hr & Hn & Hh); exists r; cbn [set_vars d_vars] in *.
    + split; [|auto]. apply in_app_iff. left. apply filter_In. split; [exact Hr|]. apply negb_true_iff, str_eqb_false. congruence.
    + split; [|auto]. apply in_app_iff in Hr as [Hr|[<-|[]]]; [apply filter_In in Hr as [Hr _]; exact Hr|]. exfalso. apply Hy. symmetry. exact Hn.
Qed.
Lemma set_never_panics x q id d p : tx_set_variable x q id d <> Panic p.
Proof.
  unfold tx_set_variable. change (@to_str_radix runtime_error (Qnum q) VARIABLE_STORAGE_RADIX) with (@Ok runtime_error _ (show_Z (Qnum q))).
  change (@to_str_radix runtime_error (Zpos (Qden q)) VARIABLE_STORAGE_RADIX) with (@Ok runtime_error _ (show_Z (Zpos (Qden q)))).
  cbn [bind]. unfold sql_var_insert. destruct (has_id _ _); discriminate.
Qed.

(** ** Transactions that only drop variables *)
Definition drops (d d' : database) : Prop := exists keep, d_vars d' = filter keep (d_vars d).
Lemma drops_refl d d' : d_vars d' = d_vars d -> drops d d'.
Proof. intros E. exists (fun _ => true). rewrite E. clear E. induction (d_vars d) as [|r l IH]; [reflexivity|]. cbn. f_equal. exact IH. Qed.
Lemma filter_filter {A} (f g : A -> bool) l : filter f (filter g l) = filter (fun a => g a && f a) l.
Proof. induction l as [|a l IH]; [reflexivity|]. cbn. destruct (g a); cbn; rewrite IH; reflexivity. Qed.
Lemma drops_trans a b c : drops a b -> drops b c -> drops a c.
Proof. intros (f & F) (g & G). exists (fun r => f r && g r). rewrite G, F. apply filter_filter. Qed.
Lemma drops_disk d d' x v : drops d d' -> on_disk d' x v -> on_disk d x v.
Proof. intros (k & E). apply (filter_disk _ _ _ _ _ E). Qed.
Lemma drops_ok d d' : drops d d' -> rows_ok d -> rows_ok d'.
Proof. intros (k & E). apply (filter_rows_ok _ _ _ E). Qed.
Definition dropping {A} (m : tx A) : Prop := forall d a d', m d = Ok (a, d') -> drops d d'.
Lemma dropping_bind {A B} (m : tx A) (f : A -> tx B) : dropping m -> (forall a, dropping (f a)) -> dropping (tx_bind m f).
Proof.
  intros Hm Hf d b d' E. unfold tx_bind in E. destruct (m d) as [[a d1]|e|p] eqn:M; try discriminate E.
  eapply drops_trans; [eapply Hm; exact M|eapply Hf; exact E].
Qed.
Lemma dropping_ret {A} (a : A) : dropping (tx_ret a).
Proof. intros d b d' E. apply ok_inj, pair_equal_spec in E as [_ <-]. apply drops_refl. reflexivity. Qed.
Lemma dropping_fail {A} e : dropping (@tx_fail A e).
Proof. intros d b d' E. discriminate E. Qed.
Ltac drop_leaf := intros d a d' E; repeat match type of E with context [match ?c with _ => _ end] => destruct c; try discriminate E end;
  apply ok_inj, pair_equal_spec in E as [_ <-]; apply drops_refl; reflexivity.
Lemma dropping_evict max fuel : dropping (tx_evict_loop fuel max).
Proof.
  induction fuel as [|fuel IH]; [intros d a d' E; discriminate E|]. cbn [tx_evict_loop].
  apply dropping_bind; [unfold sql_hist_count; drop_leaf|]. intros size. destruct (Z.leb size max); [apply dropping_ret|].
  apply dropping_bind.
  { unfold not_null. apply dropping_bind; [unfold sql_tag_select; drop_leaf|]. intros [z|]; [apply dropping_ret|apply dropping_fail]. }
  intros ob. apply dropping_bind.
  { unfold not_null. apply dropping_bind; [unfold sql_hist_next; drop_leaf|]. intros [z|]; [apply dropping_ret|apply dropping_fail]. }
  intros nb. apply dropping_bind; [unfold sql_hist_clear_prev; drop_leaf|]. intros _.
  apply dropping_bind; [unfold sql_tag_update; drop_leaf|]. intros _. apply dropping_bind; [|intros _; exact IH].
  intros d a d' E. unfold sql_hist_delete in E. destruct (_ && _) in E; [discriminate E|]. apply ok_inj, pair_equal_spec in E as [_ <-].
  destruct (has_id (d_hist d) ob); [|apply drops_refl; reflexivity]. eexists. reflexivity.
Qed.
Lemma dropping_enforce : dropping tx_enforce.
Proof.
  apply dropping_bind; [unfold tx_get_max, sql_meta_select; drop_leaf|]. intros max.
  destruct (validate_max_history_size max); [apply dropping_fail|]. intros d a d' E. eapply dropping_evict; exact E.
Qed.
Lemma dropping_add text : dropping (tx_add text).
Proof.
  unfold tx_add. apply dropping_bind; [unfold sql_tag_select; drop_leaf|]. intros fr.
  apply dropping_bind; [unfold sql_hist_insert; cbv zeta; drop_leaf|]. intros id.
  apply dropping_bind; [unfold sql_tag_update; drop_leaf|]. intros _.
  apply dropping_bind; [destruct fr; [unfold sql_hist_set_next|unfold sql_tag_update]; drop_leaf|]. intros _.
  apply dropping_bind; [apply dropping_enforce|]. intros _. apply dropping_ret.
Qed.
Lemma dropping_set_max n : dropping (tx_set_max n).
Proof.
  unfold tx_set_max. destruct (validate_max_history_size n); [apply dropping_fail|].
  apply dropping_bind; [unfold sql_meta_insert_replace; drop_leaf|]. intros _. apply dropping_enforce.
Qed.
