(** ProofsDamage2.v -- lines typed over a database file of any content. *)
From Verif Require Import Base Position Num TokenTypes Errors Token Operations SavedData Variables InputHistory
  SyntaxTree Commands Calculate Sessions SpecGrammar SpecEval SpecPrint SpecHistory SpecEditor SpecCalc SpecDamage.
From Verif Require Import ProofsNum ProofsLex ProofsLex2 ProofsSyntax ProofsEval ProofsEval2 ProofsEval3 ProofsParse ProofsParse2 ProofsParse3 ProofsPrint4
  ProofsDb ProofsEditor ProofsEditor2 ProofsEditor4 ProofsCalc ProofsCalc2 ProofsCalc3 ProofsCalc4 ProofsCalc5 ProofsCalc6 ProofsCalc7 ProofsCalc8 ProofsCalc9 ProofsCalc10 ProofsCalm ProofsCommands2 ProofsSession2 ProofsDamage.
From Verif Require PropertiesLex ProofsPosition.
From Coq Require Import String Permutation Lia.
Local Open Scope nat_scope.
Local Open Scope list_scope.

(** ** The recorded line stays recorded *)
Definition held (id : Z) (d : database) : Prop := zassoc tag_Front (d_tags d) = Some (Some id) /\ has_id (d_hist d) id = true.
Lemma zassoc_in {A} k (m : list (Z * A)) v : zassoc k m = Some v -> In (k, v) m.
Proof. induction m as [|[k' w] m IH]; [discriminate|]. cbn [zassoc]. destruct (Z.eqb_spec k k'); [intros [= ->]; left; congruence|right; auto]. Qed.
Lemma zassoc_update {A} k k' (v : A) m : zassoc k (zupdate k' v m) = if Z.eqb k k' then option_map (fun _ => v) (zassoc k m) else zassoc k m.
Proof.
  unfold zupdate. induction m as [|[k1 w] m IH]; [destruct (Z.eqb k k'); reflexivity|]. cbn [map zassoc fst].
  destruct (Z.eqb_spec k' k1) as [->|N]; cbn [zassoc].
  - destruct (Z.eqb_spec k k1); [reflexivity|exact IH].
  - destruct (Z.eqb_spec k k1) as [->|]; [|exact IH]. destruct (Z.eqb_spec k1 k'); [congruence|reflexivity].
Qed.
Lemma has_id_in h id : has_id h id = true <-> In id (hist_ids h).
Proof. unfold has_id. rewrite existsb_exists. split; [intros (y & H & E); apply Z.eqb_eq in E; congruence|intros H; exists id; split; [exact H|apply Z.eqb_refl]]. Qed.
Lemma evict_held fuel id max : forall d u d', held id d -> tx_evict_loop fuel max d = Ok (u, d') -> held id d'.
Proof.
  induction fuel as [|f IH]; intros d u d' H; [discriminate|]. cbn [tx_evict_loop]. unfold tx_bind at 1, sql_hist_count.
  destruct (Z.leb _ _); [intros [= _ <-]; exact H|].
  unfold tx_bind at 1. destruct (not_null (sql_tag_select tag_Back) d) as [[ob d1]|e|p] eqn:E1; [|discriminate..].
  assert (d1 = d) as ->.
  { revert E1. unfold not_null, tx_bind, sql_tag_select. destruct (zassoc tag_Back (d_tags d)) as [[z|]|]; try discriminate. intros E; injection E as _ <-. reflexivity. }
  unfold tx_bind at 1. destruct (not_null (sql_hist_next ob) d) as [[nb d1]|e|p] eqn:E2; [|discriminate..].
  assert (d1 = d) as ->.
  { revert E2. unfold not_null, tx_bind, sql_hist_next. destruct (find_hist (d_hist d) ob) as [r|]; [|discriminate]. destruct (h_next r); try discriminate. intros E; injection E as _ <-. reflexivity. }
  unfold tx_bind at 1, sql_hist_clear_prev. set (d2 := set_hist d _).
  assert (H2 : held id d2).
  { destruct H as (A & B). split; [exact A|]. apply has_id_in. apply has_id_in in B.
    replace (hist_ids (d_hist d2)) with (hist_ids (d_hist d)); [exact B|]. unfold d2, hist_ids. cbn [set_hist d_hist]. rewrite map_map. apply map_ext. intros a. destruct (Z.eqb (h_id a) nb); reflexivity. }
  clearbody d2. unfold tx_bind at 1. destruct (sql_tag_update tag_Back (Some nb) d2) as [[u3 d3]|e|p] eqn:E3; [|discriminate..].
  assert (H3 : held id d3).
  { destruct H2 as (A & B). revert E3. unfold sql_tag_update. destruct (zassoc tag_Back (d_tags d2)); [|intros E; injection E as _ <-; split; assumption].
    destruct (fk_ok (d_hist d2) (Some nb)); [|discriminate]. intros E; injection E as _ <-. split; [|exact B]. cbn [set_tags d_tags]. rewrite zassoc_update. exact A. }
  unfold tx_bind at 1, sql_hist_delete. destruct (_ && _)%bool eqn:R; [discriminate|]. apply IH.
  destruct H3 as (A & B). split; [exact A|]. cbn [d_hist]. apply has_id_in. apply has_id_in in B. unfold hist_ids in *. apply in_map_iff in B as (r & <- & Hr). apply in_map, filter_In. split; [exact Hr|].
  destruct (Z.eqb_spec (h_id r) ob) as [E|]; [|reflexivity]. exfalso. subst ob. revert R.
  assert (X : has_id (d_hist d3) (h_id r) = true) by (apply has_id_in, in_map; exact Hr). rewrite X. cbn [andb]. intros R. apply Bool.orb_false_iff in R as [_ R].
  assert (Y : existsb (fun t => refers (h_id r) (snd t)) (d_tags d3) = true).
  { apply existsb_exists. exists (tag_Front, Some (h_id r)). split; [apply zassoc_in; exact A|]. cbn. apply Z.eqb_refl. }
  congruence.
Qed.
Lemma enforce_held id d u d' : held id d -> tx_enforce d = Ok (u, d') -> held id d'.
Proof.
  intros H. unfold tx_enforce, tx_bind, tx_get_max, sql_meta_select. destruct (zassoc meta_MaxHistorySize (d_meta d)) as [m|]; [|discriminate].
  destruct (validate_max_history_size m); [discriminate|]. apply evict_held. exact H.
Qed.
Lemma add_held text d id d' : tx_add text d = Ok (id, d') -> held id d'.
Proof.
  unfold tx_add. unfold tx_bind at 1. unfold sql_tag_select. destruct (zassoc tag_Front (d_tags d)) as [front|] eqn:F; [|discriminate].
  unfold tx_bind at 1, sql_hist_insert. cbv zeta. set (i := next_rowid (d_hist d)). destruct (fk_ok _ front); [|discriminate].
  unfold tx_bind at 1, sql_tag_update. cbn [set_hist d_tags d_hist]. rewrite F.
  assert (Hi : has_id (d_hist d ++ [mkHist i text None front]) i = true).
  { apply has_id_in. unfold hist_ids. rewrite map_app. apply in_app_iff. right. left. reflexivity. }
  cbn [fk_ok]. rewrite Hi. set (d2 := set_tags _ _).
  assert (H2 : held i d2) by (split; [|exact Hi]; unfold d2; cbn [set_tags set_hist d_tags]; rewrite zassoc_update, Z.eqb_refl, F; reflexivity).
  clearbody d2. unfold tx_bind at 1.
  match goal with |- context [match front with Some f => sql_hist_set_next f i | None => ?t end] => destruct ((match front with Some f => sql_hist_set_next f i | None => t end) d2) as [[u3 d3]|e|p] eqn:E3 end; [|discriminate..].
  assert (H3 : held i d3).
  { destruct H2 as (A & B). destruct front as [f|].
    - revert E3. unfold sql_hist_set_next. destruct (has_id (d_hist d2) f); [|intros E; injection E as _ <-; split; assumption].
      rewrite B. intros E; injection E as _ <-. split; [exact A|]. cbn [set_hist d_hist].
      apply has_id_in. apply has_id_in in B. unfold hist_ids in *. rewrite map_map.
      replace (map _ (d_hist d2)) with (map h_id (d_hist d2)); [exact B|]. apply map_ext. intros a. destruct (Z.eqb (h_id a) f); reflexivity.
    - revert E3. unfold sql_tag_update. destruct (zassoc tag_Back (d_tags d2)); [|intros E; injection E as _ <-; split; assumption].
      cbn [fk_ok]. rewrite B. intros E; injection E as _ <-. split; [|exact B]. cbn [set_tags d_tags]. rewrite zassoc_update. exact A. }
  unfold tx_bind at 1. destruct (tx_enforce d3) as [[u4 d4]|e|p] eqn:E4; [|discriminate..]. unfold tx_ret. intros E. apply ok_inj, pair_equal_spec in E as [<- <-].
  eapply enforce_held; eauto.
Qed.

(** ** Recording a line *)
Lemma any_recording se id : any_session se -> snd (match s_inputs se with Some h => input_finished h (e_db (s_env se)) | None => (ih_new false, e_db (s_env se), Ok None) end) = Ok id ->
  memory_ok (after_recording se) /\ accepts id (e_db (after_recording se)) /\ e_vars (after_recording se) = e_vars (s_env se).
Proof.
  intros (_ & M & N & H). unfold after_recording. destruct (s_inputs se) as [h|].
  - unfold input_finished. destruct (current_line h) as [line|e|p] eqn:L; [|discriminate..].
    destruct (e_db (s_env se)) as [sd|] eqn:Es.
    + destruct (add_to_input_history line sd) as [sd' o] eqn:A. destruct (calm_call _ _ _ _ (N sd Es) A) as (C & K).
      destruct (tx_add line (sd_db sd)) as [[i d']|e|p] eqn:T; destruct K as (-> & K); [|discriminate..]. cbn [fst snd]. intros [= <-].
      split; [exact M|]. split; [|reflexivity]. cbn. split; [exact C|]. rewrite K. exact (proj2 (add_held _ _ _ _ T)).
    + cbn [fst snd]. intros [= <-]. split; [exact M|]. split; [exact I|reflexivity].
  - cbn. intros [= <-]. split; [exact M|]. rewrite H. split; [exact I|reflexivity].
Qed.
Lemma any_recording_calm se : any_session se -> no_faults (after_recording se) /\ memory_ok (after_recording se) /\ (e_db (s_env se) = None <-> e_db (after_recording se) = None).
Proof.
  intros (_ & M & N & H). unfold after_recording. destruct (s_inputs se) as [h|]; [|tauto].
  unfold input_finished. destruct (current_line h) as [line|e|p] eqn:L; [|cbn; tauto..].
  destruct (e_db (s_env se)) as [sd|] eqn:Es; [|cbn; split; [intros sd [=]|tauto]].
  destruct (add_to_input_history line sd) as [sd' o] eqn:A. destruct (calm_call _ _ _ _ (N sd Es) A) as (C & K).
  assert (X : no_faults (mkEnv (e_vars (s_env se)) (Some sd'))) by (intros sd0 [= <-]; exact C).
  destruct o as [i|e|p]; cbn; (split; [exact X|]); (split; [exact M|split; discriminate]).
Qed.

(** ** Touching *)
Lemma same_rows_reading d d' x o : same_rows d d' -> reading d x o -> reading d' x o.
Proof.
  intros S H. assert (K : forall r, In r (d_vars d) -> exists r', In r' (d_vars d') /\ v_name r' = v_name r /\ v_numer r' = v_numer r /\ v_denom r' = v_denom r).
  { intros r Hr. destruct (same_rows_in _ _ _ S Hr) as (r' & Hr' & E). unfold strip in E. injection E as A B C. exists r'. auto. }
  destruct H as [A|r n m v Hi Hx Hn Hm NZ V C|r Hi Hx Hn|r n Hi Hx Hn Hm|r n Hi Hx Hn Hm]; try (destruct (K r Hi) as (r' & Hi' & E1 & E2 & E3); rewrite <- E1 in Hx; rewrite <- E2 in *; try rewrite <- E3 in *).
  - apply rd_absent. intros r Hr. destruct (same_rows_in _ _ _ (same_rows_sym _ _ S) Hr) as (r' & Hr' & E). unfold strip in E. injection E as E _ _. rewrite E. apply A. exact Hr'.
  - eapply rd_value; eauto.
  - eapply rd_numerator; eauto.
  - eapply rd_denominator; eauto.
  - eapply rd_zero; eauto.
Qed.
Lemma settled_reading s s' x p r : settled s s' -> variable_reading s' x p r -> variable_reading s x p r.
Proof.
  intros (V & D) H.
  assert (L : forall sd', e_db s' = Some sd' -> exists sd, e_db s = Some sd /\ same_rows (sd_db sd') (sd_db sd) /\ (In true (sd_faults sd') -> In true (sd_faults sd))).
  { intros sd' Es. rewrite Es in D. destruct (e_db s) as [sd|]; [|contradiction]. exists sd. split; [reflexivity|]. destruct D as (A & _ & _ & _ & _ & c & F). split; [apply same_rows_sym; exact A|].
    rewrite F. intros I. apply in_app_iff. right. exact I. }
  destruct H as [E|m v Em Hv|m Em Hn Es|m sd v Em Hn Es R|m sd Em Hn Es R|m sd e Em Hn Es R|m sd q Em Hn Es R|m sd Em Hn Es F];
    try rewrite V in *; try (destruct (L sd Es) as (sd0 & S0 & DD & FF)); try apply (same_rows_reading _ _ _ _ DD) in R.
  - apply vd_no_store. exact E.
  - exact (vd_memory s x p m v Em Hv).
  - apply (vd_no_file s x p m Em Hn). rewrite Es in D. destruct (e_db s); [contradiction|reflexivity].
  - exact (vd_value s x p m sd0 v Em Hn S0 R).
  - exact (vd_absent s x p m sd0 Em Hn S0 R).
  - exact (vd_refused s x p m sd0 e Em Hn S0 R).
  - exact (vd_crash s x p m sd0 q Em Hn S0 R).
  - exact (vd_fault s x p m sd0 Em Hn S0 (FF F)).
Qed.
Lemma settled_memory s s' : settled s s' -> memory_ok s -> memory_ok s'.
Proof. intros (V & _) M m x v E. rewrite V in E. exact (M m x v E). Qed.
Lemma reads_accepts id s s' : reads_on s s' -> accepts id (e_db s) -> accepts id (e_db s').
Proof.
  intros (_ & D). destruct (e_db s) as [sd|], (e_db s') as [sd'|]; try contradiction; auto. destruct id as [i|]; cbn; auto.
  intros (C & H). destruct D as (B & _ & F). split; [eapply calm_suffix; eauto|]. rewrite <- B. exact H.
Qed.

(** ** Expression lines *)
Definition good (s : env) : Prop := memory_ok s /\ calm_odb (e_db s).
Lemma body_any pr ord x input id a s a' s' r ts : valid_settings a -> memory_ok s -> accepts id (e_db s) ->
  tokenize input (a_radix a) = Ok (PTokens ts) -> calculate_body pr ord x input id a s = (a', s', r) ->
  any_reply pr a s ts r /\ good s' /\ (e_db s = None <-> e_db s' = None).
Proof.
  intros Ha Hs H T. unfold calculate_body. rewrite T.
  destruct (touch_all (ord (token_variables ts)) id s) as [s1 r1] eqn:Et. destruct (touch_all_settled _ _ _ _ _ Et) as (St & _).
  pose proof (settled_memory _ _ St Hs) as Hs1. destruct (touch_all_calm _ _ _ _ _ H Et) as (-> & H1).
  assert (D1 : e_db s = None <-> e_db s1 = None) by (destruct St as (_ & D); destruct (e_db s), (e_db s1); try contradiction; split; congruence).
  assert (G1 : good s1) by (split; [exact Hs1|eapply accepts_calm; eauto]).
  destruct ts as [|t0 ts'].
  { intros E. apply pair_equal_spec in E as [E <-]. apply pair_equal_spec in E as [_ <-]. split; [apply ar_blank; reflexivity|auto]. }
  remember (t0 :: ts') as ts eqn:Ets. assert (Hne : ts <> []) by (subst ts; discriminate). clear Ets t0 ts'.
  destruct (syntax_tree_new ts) as [t|e|p] eqn:P.
  3:{ exfalso. exact (parse_total ts p P). }
  2:{ intros E. apply pair_equal_spec in E as [E <-]. apply pair_equal_spec in E as [_ <-]. split; [|auto].
      apply ar_syntax; [exact Hne|intros t L; apply parse_iff in L; congruence|]. apply parse_told; [|exact P].
      apply tokenize_layout in T as (_ & T & _); [exact T|]. apply radix_ok_spec. destruct Ha as (Ha & _). unfold SpecCalc.radix_ok in Ha. lia. }
  destruct (tree_execute pr a t id s1) as [s2 r2] eqn:Ex. intros E. apply pair_equal_spec in E as [E <-]. apply pair_equal_spec in E as [_ <-].
  pose proof (typed_literals input (a_radix a) ts t (proj1 Ha) T P) as Lit.
  unfold tree_execute in Ex. destruct (exec pr a (st_root t) s1) as [s3 r3] eqn:Ee.
  destruct (exec_damage pr a _ s1 s3 r3 (valid_settings_ok _ Ha) Hs1 Lit Ee) as (G & M & C).
  apply (proj1 (meaning_mono _ (variable_reading s) _ (fun y p r => settled_reading s s1 y p r St))) in M.
  pose proof (reads_ok _ _ Hs1 G) as Hs3. pose proof (reads_accepts id _ _ G H1) as H3.
  assert (G3 : good s3) by (split; [exact Hs3|eapply accepts_calm; eauto]).
  assert (D3 : e_db s = None <-> e_db s3 = None) by (rewrite D1; destruct G as (_ & D); destruct (e_db s1), (e_db s3); try contradiction; split; congruence).
  assert (V3 : e_vars s3 = None <-> e_vars s = None) by (rewrite <- (proj1 St); destruct G as (V & _); destruct (e_vars s1), (e_vars s3); try contradiction; split; congruence).
  assert (Root : derives 5 ts (st_root t) \/ exists y, assignment ts y (st_root t)).
  { apply parse_iff in P. inversion P as [ts0 n D|y p q ts0 n D]; subst; cbn [st_root]; [left; exact D|right]. exists y, p, q, ts0. auto. }
  destruct r3 as [v|e|p]; cbn [then_do] in Ex; cbn [result_of] in M.
  2:{ apply pair_equal_spec in Ex as [<- <-]. split; [eapply ar_fails; [exact Root|exact M]|auto]. }
  2:{ apply pair_equal_spec in Ex as [<- <-]. split; [eapply ar_crashes; [exact Root|exact M]|auto]. }
  specialize (C v eq_refl). destruct (st_var t) as [[y p]|] eqn:Ev.
  2:{ apply pair_equal_spec in Ex as [<- <-].
      assert (D : derives 5 ts (st_root t)).
      { apply parse_iff in P. inversion P; subst; [assumption|discriminate Ev]. }
      split; [|auto]. destruct (format_text (E := failure) a v Ha C) as (text & F & RT). rewrite F. eapply ar_value; eauto. }
  assert (A : assignment ts y (st_root t)).
  { apply parse_iff in P. inversion P as [ts0 n D|y0 p0 q0 ts0 n D]; subst; cbn [st_root st_var] in *; [discriminate Ev|]. injection Ev as <- <-.
    exists p0, q0, ts0. auto. }
  assert (Hpos : nth_error ts 0 = Some (tk (TVariable y) p)).
  { apply parse_iff in P. inversion P as [ts0 n D|y0 p0 q0 ts0 n D]; subst; cbn [st_root st_var] in *; [discriminate Ev|]. injection Ev as <- <-. reflexivity. }
  cbn [pd_value pd_pos] in Ex. destruct (e_vars s3) as [m|] eqn:Em.
  2:{ apply pair_equal_spec in Ex as [<- <-]. split; [|auto]. eapply ar_no_store; [exact A|exact Hpos|]. apply V3. reflexivity. }
  assert (Hstore : e_vars s <> None) by (rewrite <- V3; discriminate).
  destruct (vs_update m y v id (e_db s3)) as [[m' odb'] r4] eqn:U. destruct (vs_update_calm _ _ _ _ _ _ _ _ H3 U) as (-> & H4).
  apply pair_equal_spec in Ex as [<- <-]. split; [|split].
  - destruct (format_text (E := failure) a v Ha C) as (text & F & RT). cbn. rewrite F. eapply ar_value; eauto.
  - split; [|exact (accepts_calm _ _ H4)]. unfold vs_update in U. destruct (match e_db s3 with Some _ => _ | None => _ end) as [db' res]. apply pair_equal_spec in U as [U _]. apply pair_equal_spec in U as [<- _].
    intros m0 z w E0. cbn in E0. injection E0 as <-. rewrite vs_get_insert. destruct (str_eqb z y); [intros [= <-]; exact C|]. apply (Hs3 m z w Em).
  - cbn [e_db]. rewrite D3. unfold vs_update in U. destruct (e_db s3) as [sd|], id as [i|]; cbn in U; apply pair_equal_spec in U as [U _]; apply pair_equal_spec in U as [_ <-]; split; congruence.
Qed.

(** ** Commands *)
Lemma reload_any names : forall out touched m sd m' sd' r, calm sd -> (forall x v, vs_get m x = Some v -> canon v) ->
  reload_loop names out touched m sd = (m', sd', r) ->
  calm sd' /\ sd_db sd' = sd_db sd /\ (forall x v, vs_get m' x = Some v -> canon v) /\ (forall q, r = Panic q -> exists x, In x names /\ reading (sd_db sd) x (Panic q)).
Proof.
  induction names as [|x names IH]; intros out touched m sd m' sd' r C Hm E; cbn [reload_loop] in E.
  - apply pair_equal_spec in E as [E <-]. apply pair_equal_spec in E as [<- <-]. repeat split; auto. discriminate.
  - cbv zeta in E. unfold vs_reload in E. destruct (get_variable x sd) as [sd1 o1] eqn:G. destruct (calm_call _ _ _ _ C G) as (C1 & K).
    destruct (tx_get_reading (sd_db sd) x) as (o & M & R). rewrite M in K. destruct o as [[v|]|e|q]; cbn [bind] in K; destruct K as (-> & K).
    + apply IH in E as (A & B & D & F); [|exact C1|].
      * rewrite K in *. repeat split; auto. intros q Hq. destruct (F q Hq) as (y & Hy & Ry). exists y. split; [right; exact Hy|exact Ry].
      * intros y w. rewrite vs_get_insert. destruct (str_eqb y x); [intros [= <-]; exact (reading_canon _ _ _ R)|apply Hm].
    + apply IH in E as (A & B & D & F); [|exact C1|exact Hm].
      rewrite K in *. repeat split; auto. intros q Hq. destruct (F q Hq) as (y & Hy & Ry). exists y. split; [right; exact Hy|exact Ry].
    + apply pair_equal_spec in E as [E <-]. apply pair_equal_spec in E as [<- <-]. repeat split; auto. discriminate.
    + apply pair_equal_spec in E as [E <-]. apply pair_equal_spec in E as [<- <-]. repeat split; auto. intros q' [= <-]. exists x. split; [left; reflexivity|exact R].
Qed.
Lemma purge_any names : forall m odb m' odb' r, calm_odb odb -> purge_loop names m odb = (m', odb', r) ->
  r = Ok tt /\ calm_odb odb' /\ (odb = None <-> odb' = None) /\ (forall x v, vs_get m' x = Some v -> vs_get m x = Some v).
Proof.
  induction names as [|x names IH]; intros m odb m' odb' r H E; cbn [purge_loop] in E.
  - apply pair_equal_spec in E as [E <-]. apply pair_equal_spec in E as [<- <-]. repeat split; auto.
  - destruct (vs_purge m x odb) as [[m1 odb1] r1] eqn:T. unfold vs_purge in T. cbv zeta in T.
    assert (K : r1 = Ok tt /\ calm_odb odb1 /\ (odb = None <-> odb1 = None) /\ m1 = vs_remove m x).
    { destruct odb as [sd|].
      - destruct (clear_variable x sd) as [sd' o] eqn:Ec. apply pair_equal_spec in T as [T <-]. apply pair_equal_spec in T as [<- <-].
        destruct (calm_call _ _ _ _ (H sd eq_refl) Ec) as (C & K). cbn in K. destruct K as (-> & _). split; [reflexivity|]. split; [intros sd0 [= <-]; exact C|]. split; [split; discriminate|reflexivity].
      - apply pair_equal_spec in T as [T <-]. apply pair_equal_spec in T as [<- <-]. split; [reflexivity|]. split; [discriminate|]. split; [tauto|reflexivity]. }
    destruct K as (-> & K & Kn & ->). destruct (IH _ _ _ _ _ K E) as (A & B & D & F). split; [exact A|]. split; [exact B|]. split; [tauto|].
    intros y v Hy. apply F in Hy. revert Hy. clear. unfold vs_remove. induction m as [|[k w] m IH]; [discriminate|]. cbn [filter fst vs_get].
    destruct (str_eqb x k) eqn:Ex; cbn [negb vs_get]; destruct (str_eqb y k) eqn:Ey; auto. intros Hy. exfalso.
    apply str_eqb_spec in Ex, Ey. subst k x. clear IH. induction m as [|[k w'] m IH]; [discriminate Hy|]. cbn [filter fst vs_get] in Hy.
    destruct (str_eqb y k) eqn:E; cbn [negb vs_get] in Hy; [|rewrite E in Hy]; exact (IH Hy).
Qed.
Lemma radix_arg_calm pr arguments p : parse_radix_arg pr arguments <> Panic p.
Proof.
  unfold parse_radix_arg. destruct (tokenize_int_list pr (pd_value arguments) 10) as [[|i [|j l]]|e|q] eqn:T; try discriminate; [|intros _; exact (Verif.PropertiesLex.C07_no_crash pr _ 10 q ltac:(lia) T)].
  destruct (Z.ltb _ 2); [discriminate|]. destruct (Z.ltb 16 _); discriminate.
Qed.
Lemma check_precision_calm a i j p : check_precision a i j <> Panic p.
Proof.
  unfold check_precision. destruct (u8_try_from (pd_value i)); [|discriminate]. destruct j as [j|]; [destruct (u8_try_from (pd_value j)); cbn [bind]; [|discriminate]|cbn [bind]]; destruct (N.ltb _ _); discriminate.
Qed.
Lemma command_any pr ord x c arguments id a s a' s' r : iterates ord -> memory_ok s -> accepts id (e_db s) ->
  run_command pr ord x c arguments a s = (a', s', r) ->
  good s' /\ (e_db s = None <-> e_db s' = None) /\ (forall m t, r = Ok (m, t) -> t = [] \/ accepts id (e_db s')) /\
  (forall q, r = Panic q -> exists sd l z, e_db s = Some sd /\ tokenize_variable_list (pd_value arguments) = Ok l /\ In z (map pd_value l) /\ reading (sd_db sd) z (Panic q)).
Proof.
  intros Ho Hs H E.
  assert (Gs : good s) by (split; [exact Hs|eapply accepts_calm; eauto]).
  destruct (keeps_state c) eqn:K.
  { destruct (setting_keeps _ _ _ _ _ _ _ _ _ _ K E) as (-> & Tn & _). split; [exact Gs|]. split; [tauto|]. split; [intros m t Er; left; eauto|].
    intros q ->. exfalso. destruct c; try discriminate K; cbn [run_command] in E.
    - unfold exec_help in E. destruct (ProofsPosition.ptrim_trimmed (E := failure) arguments) as (y & Ey & _). rewrite Ey in E. destruct (pd_value y); [discriminate E|]. destruct (assoc _ _); discriminate E.
    - unfold exec_bool_setting, cmd_done in E. cbv zeta in E. destruct (trim _); [|destruct (_ || _); [|destruct (_ || _)]]; discriminate E.
    - unfold exec_radix in E. destruct (parse_radix_arg pr arguments) as [[v|]|e'|p] eqn:P; try discriminate E. exact (radix_arg_calm _ _ _ P).
    - unfold exec_converttoradix in E. destruct (str_eqb _ _); [discriminate E|].
      destruct (parse_radix_arg pr arguments) as [[v|]|e'|p] eqn:P; try discriminate E. exact (radix_arg_calm _ _ _ P).
    - unfold exec_bool_setting, cmd_done in E. cbv zeta in E. destruct (trim _); [|destruct (_ || _); [|destruct (_ || _)]]; discriminate E.
    - unfold exec_bool_setting, cmd_done in E. cbv zeta in E. destruct (trim _); [|destruct (_ || _); [|destruct (_ || _)]]; discriminate E.
    - unfold exec_precision in E. cbv zeta in E. destruct (tokenize_int_list _ _ _) as [[|i [|j [|k l]]]|e'|p] eqn:T; try discriminate E.
      + destruct (check_precision a i None) as [[p1 e1]|e'|p] eqn:P; try discriminate E. exact (check_precision_calm _ _ _ _ P).
      + destruct (check_precision a i (Some j)) as [[p1 e1]|e'|p] eqn:P; try discriminate E. exact (check_precision_calm _ _ _ _ P).
      + exact (Verif.PropertiesLex.C07_no_crash pr _ 10 p ltac:(lia) T). }
  assert (Same : s' = s -> (forall q, r <> Panic q) -> (forall m t, r <> Ok (m, t)) ->
    good s' /\ (e_db s = None <-> e_db s' = None) /\ (forall m t, r = Ok (m, t) -> t = [] \/ accepts id (e_db s')) /\
    (forall q, r = Panic q -> exists sd l z, e_db s = Some sd /\ tokenize_variable_list (pd_value arguments) = Ok l /\ In z (map pd_value l) /\ reading (sd_db sd) z (Panic q))).
  { intros -> N1 N2. split; [exact Gs|]. split; [tauto|]. split; [intros m t X; destruct (N2 m t X)|]. intros q X. destruct (N1 q X). }
  destruct c; try discriminate K; clear K; cbn [run_command] in E.
  - unfold exec_reloadvar in E. destruct (tokenize_variable_list _) as [l|e|p] eqn:T.
    2:{ apply pair_equal_spec in E as [E <-]. apply pair_equal_spec in E as [_ E]. apply Same; [congruence|discriminate|discriminate]. }
    2:{ destruct (Verif.PropertiesLex.C08_no_crash _ _ T). }
    destruct (e_db s) as [sd|] eqn:Es; [|apply pair_equal_spec in E as [E <-]; apply pair_equal_spec in E as [_ E]; apply Same; [congruence|discriminate|discriminate]].
    destruct (e_vars s) as [m|] eqn:Em; [|apply pair_equal_spec in E as [E <-]; apply pair_equal_spec in E as [_ E]; apply Same; [congruence|discriminate|discriminate]].
    destruct (reload_loop _ _ _ m sd) as [[m' sd'] o] eqn:L. apply pair_equal_spec in E as [E <-]. apply pair_equal_spec in E as [_ <-].
    destruct id as [i|]; [|destruct H]. destruct H as (C & Hi). destruct (reload_any _ _ _ _ _ _ _ _ C (fun x v => Hs m x v Em) L) as (A & B & D & F).
    cbn [e_db e_vars]. split; [split; [intros m0 y v [= <-]; apply D|intros sd0 [= <-]; exact A]|]. split; [split; discriminate|]. split.
    { intros mm t _. right. cbn. rewrite B. auto. }
    intros q Hq. destruct o as [ok|e|p]; try discriminate Hq. cbn in Hq. injection Hq as ->. destruct (F q eq_refl) as (z & Hz & R). exists sd, l, z. split; [reflexivity|]. split; [reflexivity|].
    split; [apply (in_names ord l z Ho); exact Hz|exact R].
  - unfold exec_purgevar in E. destruct (tokenize_variable_list _) as [l|e|p] eqn:T.
    2:{ apply pair_equal_spec in E as [E <-]. apply pair_equal_spec in E as [_ E]. apply Same; [congruence|discriminate|discriminate]. }
    2:{ destruct (Verif.PropertiesLex.C08_no_crash _ _ T). }
    destruct (e_vars s) as [m|] eqn:Em; [|apply pair_equal_spec in E as [E <-]; apply pair_equal_spec in E as [_ E]; apply Same; [congruence|discriminate|discriminate]].
    destruct (purge_loop _ m (e_db s)) as [[m' odb'] o] eqn:L. apply pair_equal_spec in E as [E <-]. apply pair_equal_spec in E as [_ <-].
    destruct (purge_any _ _ _ _ _ _ (accepts_calm _ _ H) L) as (-> & B & D & F). split; [split; [intros m0 y v [= <-] Hy; exact (Hs m y v Em (F _ _ Hy))|exact B]|]. split; [exact D|]. split; [|discriminate].
    intros mm t Et. left. apply ok_inj, pair_equal_spec in Et as [_ Et]. auto.
  - unfold exec_histcap in E. destruct (tokenize_int_list _ _ _) as [[|i [|j l]]|e|p] eqn:T;
      try (apply pair_equal_spec in E as [E <-]; apply pair_equal_spec in E as [_ E]; apply Same; [congruence|discriminate|discriminate]).
    + destruct (e_db s) as [sd|] eqn:Es; [|apply pair_equal_spec in E as [E <-]; apply pair_equal_spec in E as [_ E]; apply Same; [congruence|discriminate|discriminate]].
      destruct (get_max_history_size sd) as [sd' o] eqn:G. apply pair_equal_spec in E as [E <-]. apply pair_equal_spec in E as [_ <-].
      destruct (calm_call _ _ _ _ (accepts_calm _ _ H sd eq_refl) G) as (C & _). cbn [e_db]. split; [split; [exact Hs|intros sd0 [= <-]; exact C]|]. split; [split; discriminate|].
      pose proof (nc_call _ tx_get_max sd) as NC. unfold get_max_history_size in G. rewrite G in NC. cbn [snd] in NC.
      split; [intros mm t Et; left; destruct o; try discriminate Et; apply ok_inj, pair_equal_spec in Et as [_ Et]; auto|]. intros q Hq. destruct o as [cap|e|p]; try discriminate Hq. destruct (NC p nc_get_max eq_refl).
    + destruct (validate_max_history_size (pd_value i)) as [m|] eqn:V; [apply pair_equal_spec in E as [E <-]; apply pair_equal_spec in E as [_ E]; apply Same; [congruence|discriminate|discriminate]|].
      destruct (e_db s) as [sd|] eqn:Es; [|apply pair_equal_spec in E as [E <-]; apply pair_equal_spec in E as [_ E]; apply Same; [congruence|discriminate|discriminate]].
      destruct (set_max_history_size (pd_value i) sd) as [sd' o] eqn:G. apply pair_equal_spec in E as [E <-]. apply pair_equal_spec in E as [_ <-].
      destruct (calm_call _ _ _ _ (accepts_calm _ _ H sd eq_refl) G) as (C & _). cbn [e_db]. split; [split; [exact Hs|intros sd0 [= <-]; exact C]|]. split; [split; discriminate|].
      pose proof (nc_call _ (tx_set_max (pd_value i)) sd) as NC. unfold set_max_history_size in G. rewrite G in NC. cbn [snd] in NC.
      split; [intros mm t Et; left; destruct o; try discriminate Et; apply ok_inj, pair_equal_spec in Et as [_ Et]; auto|]. intros q Hq. destruct o as [cap|e|p]; try discriminate Hq. destruct (NC p (nc_set_max _) eq_refl).
    + destruct (Verif.PropertiesLex.C07_no_crash pr _ 10 p ltac:(lia) T).
Qed.

(** ** Whole lines *)
Lemma any_line pr ord x input se se' r : iterates ord -> any_session se -> calculate pr ord x input se = (se', r) ->
  any_session se' /\
  ((exists h e, s_inputs se = Some h /\ snd (input_finished h (e_db (s_env se))) = Err e /\ r = Err (RuntimeError e)) \/
   ((forall ts, is_expression (a_radix (s_args se)) input ts -> any_reply pr (s_args se) (after_recording se) ts r) /\
    (forall q, r = Panic q -> (exists ts, is_expression (a_radix (s_args se)) input ts) \/
       exists name xs sd z, variable_command (a_radix (s_args se)) input name xs /\ In z xs /\ e_db (after_recording se) = Some sd /\ reading (sd_db sd) z (Panic q)))).
Proof.
  intros Ho A C. pose proof A as (Ha & Hm & Hn & Hh). destruct (any_recording_calm se A) as (Nf & Mm & Dn).
  assert (Inp : match s_inputs se' with Some h => history_of_session h | None => s_inputs se = None end).
  { destruct se as [a [h|] s]; cbn [s_inputs] in *.
    - destruct (shown_ok h Hh) as (line & L). destruct (recorded_session _ _ _ _ _ _ _ _ _ _ Hh L C) as (h' & -> & Hh' & _). exact Hh'.
    - destruct (calculate_cases _ _ _ _ _ _ _ C) as [(_ & _ & h & _ & _ & _ & X & _)|(id & _ & _ & -> & _)]; [discriminate X|reflexivity]. }
  assert (Fin : memory_ok (s_env se') -> calm_odb (e_db (s_env se')) -> (e_db (s_env se) = None <-> e_db (s_env se') = None) -> any_session se').
  { intros M' N' D'. split; [eapply calculate_settings; eauto|]. split; [exact M'|]. split; [exact N'|]. destruct (s_inputs se') as [h|]; [exact Inp|]. rewrite Inp in Hh. apply D'. exact Hh. }
  destruct (calculate_cases _ _ _ _ _ _ _ C) as [(Eq & Ee & h & h' & db' & o & Eh & _ & F & D)|(id & B & Hid & Hi)].
  - split; [apply Fin; rewrite Ee; assumption|]. left. exists h. destruct D as [(e & -> & ->)|(p & -> & _)].
    + exists e. split; [exact Eh|]. rewrite F. auto.
    + exfalso. rewrite Eh in Hh. apply history_ok in Hh. exact (proj2 (input_finished_ok _ _ _ _ _ Hh F) p eq_refl).
  - assert (Rec : memory_ok (after_recording se) /\ accepts id (e_db (after_recording se)) /\ e_vars (after_recording se) = e_vars (s_env se)).
    { apply any_recording; [exact A|]. destruct (s_inputs se) as [h|]; [destruct Hi as (h' & db' & _ & ->); reflexivity|destruct Hi as (_ & ->); reflexivity]. }
    destruct Rec as (R1 & R2 & _).
    destruct (tokenize input (a_radix (s_args se))) as [[ts|name arguments]|e|p] eqn:T.
    + destruct (body_any _ _ _ _ _ _ _ _ _ _ _ Ha R1 R2 T B) as (Rp & (G1 & G2) & Gd). split; [apply Fin; [exact G1|exact G2|tauto]|]. right. split.
      * intros ts' T'. unfold is_expression in T'. assert (ts' = ts) as -> by congruence. exact Rp.
      * intros q _. left. exists ts. exact T.
    + unfold calculate_body in B. rewrite T in B. unfold execute_command in B.
      assert (Ne : forall ts, is_expression (a_radix (s_args se)) input ts -> any_reply pr (s_args se) (after_recording se) ts r) by (intros ts T'; unfold is_expression in T'; congruence).
      destruct (assoc (resolve_alias x (pd_value name)) (x_commands x)) as [c|].
      2:{ apply pair_equal_spec in B as [B <-]. apply pair_equal_spec in B as [_ B]. split; [apply Fin; rewrite <- B; assumption|]. right. split; [exact Ne|discriminate]. }
      destruct (run_command pr ord x c arguments (s_args se) (after_recording se)) as [[a1 s1] r1] eqn:E. destruct (command_any _ _ _ _ _ _ _ _ _ _ _ Ho R1 R2 E) as ((G1 & G2) & Gd & Tt & Pn).
      destruct r1 as [[m t]|e|p].
      * destruct (touch_all t id s1) as [s2 r2] eqn:Et. apply pair_equal_spec in B as [B <-]. apply pair_equal_spec in B as [_ B].
        destruct (touch_all_settled _ _ _ _ _ Et) as (St & Np & _).
        assert (D2 : e_db s1 = None <-> e_db s2 = None) by (destruct St as (_ & D); destruct (e_db s1), (e_db s2); try contradiction; split; congruence).
        assert (C2 : calm_odb (e_db s2)).
        { destruct (Tt m t eq_refl) as [->|H1].
          - unfold touch_all in Et. destruct (e_vars s1); cbn [touch_loop] in Et; apply pair_equal_spec in Et as [<- _]; exact G2.
          - eapply accepts_calm. exact (proj2 (touch_all_calm _ _ _ _ _ H1 Et)). }
        split; [apply Fin; rewrite <- B; [exact (settled_memory _ _ St G1)|exact C2|tauto]|]. right. split; [exact Ne|]. intros q Hq. exfalso. destruct r2; try discriminate Hq. exact (Np p eq_refl).
      * apply pair_equal_spec in B as [B <-]. apply pair_equal_spec in B as [_ B]. split; [apply Fin; rewrite <- B; [exact G1|exact G2|tauto]|]. right. split; [exact Ne|discriminate].
      * apply pair_equal_spec in B as [B <-]. apply pair_equal_spec in B as [_ B]. split; [apply Fin; rewrite <- B; [exact G1|exact G2|tauto]|]. right. split; [exact Ne|].
        intros q [= <-]. right. destruct (Pn p eq_refl) as (sd & l & z & Es & Tl & Hz & R). exists (pd_value name), (map pd_value l), sd, z.
        split; [exists (pd_value arguments), l; split; [exists name, arguments; auto|auto]|]. auto.
    + unfold calculate_body in B. rewrite T in B. apply pair_equal_spec in B as [B <-]. apply pair_equal_spec in B as [_ B]. split; [apply Fin; rewrite <- B; assumption|].
      right. split; [intros ts T'; unfold is_expression in T'; congruence|discriminate].
    + destruct (Verif.PropertiesLex.C04_no_crash input (a_radix (s_args se)) p (proj1 Ha) T).
Qed.
