(** ProofsOrder.v -- two runs from the same state with different iteration orders of the hash sets. *)
From Verif Require Import Base Position Num TokenTypes Errors Token SavedData Variables InputHistory
  SyntaxTree Commands Calculate Editor Main SpecEval SpecHistory SpecEditor SpecCalc SpecSession SpecData SpecOrder.
From Verif Require Import ProofsEval ProofsEval2 ProofsCalc2 ProofsCalc3 ProofsCalc4 ProofsCalc5 ProofsCalm ProofsTouch ProofsData ProofsSession.
From Coq Require Import String Permutation Lia.
Local Open Scope nat_scope.
Local Open Scope list_scope.

Definition pair2 (o1 o2 : option saved_data) : Prop :=
  match o1, o2 with
  | None, None => True
  | Some s1, Some s2 => calm s1 /\ calm s2 /\ sd_db s1 = sd_db s2 /\ sd_pos s1 = sd_pos s2
  | _, _ => False
  end.
Definition eqv (m1 m2 : vstore) : Prop := forall y, vs_get m1 y = vs_get m2 y.
Definition eqvo (v1 v2 : option vstore) : Prop :=
  match v1, v2 with None, None => True | Some m1, Some m2 => eqv m1 m2 | _, _ => False end.
Definition like (s1 s2 : env) : Prop := eqvo (e_vars s1) (e_vars s2) /\ pair2 (e_db s1) (e_db s2).
Definition like3 {E A} (p1 p2 : vstore * option saved_data * outcome E A) : Prop :=
  eqv (fst (fst p1)) (fst (fst p2)) /\ pair2 (snd (fst p1)) (snd (fst p2)) /\ snd p1 = snd p2.
Lemma eqv_insert m1 m2 x v : eqv m1 m2 -> eqv (vs_insert m1 x v) (vs_insert m2 x v).
Proof. intros H y. rewrite !vs_get_insert, H. reflexivity. Qed.

Lemma call_pair {A} (m : tx A) s1 s2 s1' r1 s2' r2 : pair2 (Some s1) (Some s2) -> sd_call m s1 = (s1', r1) -> sd_call m s2 = (s2', r2) ->
  pair2 (Some s1') (Some s2') /\ r1 = r2.
Proof.
  intros (C1 & C2 & D & P) E1 E2. destruct (calm_call _ _ _ _ C1 E1) as (C1' & K1). destruct (calm_call _ _ _ _ C2 E2) as (C2' & K2).
  assert (Q : forall sd sd' (r : outcome runtime_error A), sd_call m sd = (sd', r) -> sd_pos sd' = sd_pos sd).
  { clear. intros sd sd' r E. unfold sd_call in E. destruct (sd_faults sd) as [|[|] fs]; [| |]; try (destruct (m (sd_db sd)) as [[a d']|e|p]); apply pair_equal_spec in E as [<- _]; reflexivity. }
  rewrite D in K1. destruct (m (sd_db s2)) as [[a d']|e|p]; destruct K1 as (-> & K1), K2 as (-> & K2);
    (split; [|reflexivity]); split; [exact C1'| |exact C1'| |exact C1'|]; (split; [exact C2'|]); (split; [congruence|]); rewrite (Q _ _ _ E1), (Q _ _ _ E2); exact P.
Qed.
Lemma prev_pair s1 s2 s1' r1 s2' r2 : pair2 (Some s1) (Some s2) -> get_prev_input_history s1 = (s1', r1) -> get_prev_input_history s2 = (s2', r2) ->
  pair2 (Some s1') (Some s2') /\ r1 = r2.
Proof.
  intros T. pose proof T as (_ & _ & _ & P). unfold get_prev_input_history. rewrite P. destruct (sd_pos s2) as [i|].
  2:{ intros E1 E2. apply pair_equal_spec in E1 as [<- <-], E2 as [<- <-]. auto. }
  set (m := fun d : database => Ok (find_hist (d_hist d) i, d)). destruct (sd_call m s1) as [t1 o1] eqn:E1. destruct (sd_call m s2) as [t2 o2] eqn:E2.
  destruct (call_pair _ _ _ _ _ _ _ T E1 E2) as (T' & ->). destruct T' as (A & B & C & D).
  destruct o2 as [[r|]|e|p]; intros F1 F2; apply pair_equal_spec in F1 as [<- <-], F2 as [<- <-]; cbn; auto.
Qed.
Lemma finished_pair h o1 o2 : pair2 o1 o2 ->
  fst (fst (input_finished h o1)) = fst (fst (input_finished h o2)) /\ pair2 (snd (fst (input_finished h o1))) (snd (fst (input_finished h o2))) /\
  snd (input_finished h o1) = snd (input_finished h o2).
Proof.
  intros T. unfold input_finished. destruct (current_line h) as [l|e|p]; [|cbn; auto..].
  destruct o1 as [s1|], o2 as [s2|]; try contradiction; [|cbn; auto].
  unfold add_to_input_history. destruct (sd_call (tx_add l) s1) as [t1 o1] eqn:E1. destruct (sd_call (tx_add l) s2) as [t2 o2] eqn:E2.
  destruct (call_pair _ _ _ _ _ _ _ T E1 E2) as (T' & ->). destruct o2; cbn [fst snd]; auto.
Qed.
Lemma earlier_pair h o1 o2 : pair2 o1 o2 ->
  fst (fst (try_earlier h o1)) = fst (fst (try_earlier h o2)) /\ pair2 (snd (fst (try_earlier h o1))) (snd (fst (try_earlier h o2))) /\
  snd (try_earlier h o1) = snd (try_earlier h o2).
Proof.
  intros T. unfold try_earlier. destruct (Nat.leb _ _); [|cbn; auto]. destruct (ih_exhausted h); [cbn; auto|].
  destruct o1 as [s1|], o2 as [s2|]; try contradiction; [|cbn; auto].
  destruct (get_prev_input_history s1) as [t1 o1] eqn:E1. destruct (get_prev_input_history s2) as [t2 o2] eqn:E2.
  destruct (prev_pair _ _ _ _ _ _ T E1 E2) as (T' & ->). destruct o2 as [[?|]| |]; cbn [fst snd]; auto.
Qed.
Lemma update_like m1 m2 x v id o1 o2 : eqv m1 m2 -> pair2 o1 o2 -> like3 (vs_update m1 x v id o1) (vs_update m2 x v id o2).
Proof.
  intros V T. unfold vs_update. destruct o1 as [s1|], o2 as [s2|]; try contradiction.
  2:{ destruct id; (split; [apply eqv_insert, V|]); cbn; auto. }
  destruct id as [i|]; [|split; [apply eqv_insert, V|split; [exact T|reflexivity]]].
  unfold db_result, set_variable. destruct (sd_call _ s1) as [t1 r1] eqn:E1, (sd_call _ s2) as [t2 r2] eqn:E2.
  destruct (call_pair _ _ _ _ _ _ _ T E1 E2) as (T' & ->). split; [apply eqv_insert, V|]. split; [exact T'|reflexivity].
Qed.
Lemma lookup_like m1 m2 x o1 o2 : eqv m1 m2 -> pair2 o1 o2 -> like3 (vs_lookup m1 x o1) (vs_lookup m2 x o2).
Proof.
  intros V T. unfold vs_lookup. rewrite (V x). destruct (vs_get m2 x); [split; [exact V|split; [exact T|reflexivity]]|].
  destruct o1 as [s1|], o2 as [s2|]; try contradiction; [|split; [exact V|split; [exact I|reflexivity]]].
  unfold vs_reload, get_variable. destruct (sd_call _ s1) as [t1 r1] eqn:E1, (sd_call _ s2) as [t2 r2] eqn:E2.
  destruct (call_pair _ _ _ _ _ _ _ T E1 E2) as (T' & ->). destruct r2 as [[v|]|e|p]; (split; [|split; [exact T'|reflexivity]]); try exact V. apply eqv_insert, V.
Qed.

(** The loops, whatever the order. *)
Definition used_by (names : list str) (i : Z) (d : database) : database :=
  set_vars d (map (fun v => if existsb (str_eqb (v_name v)) names then mkVar (v_name v) (v_numer v) (v_denom v) i else v) (d_vars d)).
Lemma existsb_name y names : existsb (str_eqb y) names = true <-> List.In y names.
Proof.
  rewrite existsb_exists. split; [intros (z & H & E); apply str_eqb_spec in E; subst; exact H|].
  intros H. exists y. split; [exact H|]. apply str_eqb_spec. reflexivity.
Qed.
Lemma existsb_perm y l1 l2 : Permutation l1 l2 -> existsb (str_eqb y) l1 = existsb (str_eqb y) l2.
Proof.
  intros P. apply Bool.eq_iff_eq_true. rewrite !existsb_name. split; apply Permutation_in; [exact P|apply Permutation_sym, P].
Qed.
Lemma used_perm l1 l2 i d : Permutation l1 l2 -> used_by l1 i d = used_by l2 i d.
Proof. intros P. unfold used_by. f_equal. apply map_ext. intros v. rewrite (existsb_perm _ _ _ P). reflexivity. Qed.
Lemma used_cons x names i d : used_by names i (set_vars d (map (fun v => if str_eqb (v_name v) x then mkVar (v_name v) (v_numer v) (v_denom v) i else v) (d_vars d))) =
  used_by (x :: names) i d.
Proof.
  unfold used_by, set_vars. cbn. f_equal. rewrite map_map. apply map_ext. intros v. cbn [existsb].
  destruct (str_eqb (v_name v) x) eqn:E; cbn [v_name v_numer v_denom orb]; [|reflexivity]. destruct (existsb _ _); reflexivity.
Qed.
Lemma used_nothing i d : used_by [] i d = d.
Proof. unfold used_by, set_vars. destruct d. cbn. f_equal. apply map_id. Qed.
Lemma touch_one x i d : has_id (d_hist d) i = true ->
  tx_touch_variable x i d = Ok (tt, set_vars d (map (fun v => if str_eqb (v_name v) x then mkVar (v_name v) (v_numer v) (v_denom v) i else v) (d_vars d))).
Proof.
  intros H. unfold tx_touch_variable, sql_var_touch. rewrite H. destruct (existsb _ _) eqn:E; [reflexivity|].
  do 2 f_equal. unfold set_vars. destruct d as [a b c vars]. cbn in *. f_equal. clear H. induction vars as [|v vars IH]; [reflexivity|].
  cbn in *. apply orb_false_iff in E as (E1 & E2). rewrite E1, <- IH by exact E2. reflexivity.
Qed.
Definition touched_to (names : list str) (id : option Z) (o o' : option saved_data) : Prop :=
  match o, o', id with
  | None, None, None => True
  | Some sd, Some sd', Some i => calm sd' /\ sd_pos sd' = sd_pos sd /\ sd_db sd' = used_by names i (sd_db sd)
  | _, _, _ => False
  end.
Lemma touch_loop_to names id : forall m o m' o' r, accepts id o -> touch_loop names id m o = (m', o', r) -> m' = m /\ r = Ok tt /\ touched_to names id o o'.
Proof.
  induction names as [|x names IH]; intros m o m' o' r A E; cbn [touch_loop] in E.
  - apply pair_equal_spec in E as [E <-]. apply pair_equal_spec in E as [<- <-]. split; [reflexivity|]. split; [reflexivity|].
    destruct o as [sd|], id as [i|]; cbn in A |- *; try contradiction; [|exact I]. rewrite used_nothing. tauto.
  - destruct (vs_touch m x id o) as [[m1 o1] r1] eqn:T. unfold vs_touch in T. destruct o as [sd|], id as [i|]; try contradiction.
    + destruct A as (C & H). unfold db_result, touch_variable in T. destruct (sd_call (tx_touch_variable x i) sd) as [sd1 q] eqn:K.
      assert (Q : sd_pos sd1 = sd_pos sd).
      { clear -K. unfold sd_call in K. destruct (sd_faults sd) as [|[|] fs]; [| |]; try (destruct (tx_touch_variable x i (sd_db sd)) as [[a d']|e|p]); apply pair_equal_spec in K as [<- _]; reflexivity. }
      destruct (calm_call _ _ _ _ C K) as (C1 & W). rewrite (touch_one _ _ _ H) in W. destruct W as (-> & W). cbn [fst snd] in T.
      apply pair_equal_spec in T as [T <-]. apply pair_equal_spec in T as [<- <-].
      assert (A1 : accepts (Some i) (Some sd1)) by (split; [exact C1|rewrite W; exact H]).
      destruct (IH _ _ _ _ _ A1 E) as (-> & -> & Z). split; [reflexivity|]. split; [reflexivity|]. cbn [touched_to] in Z |- *.
      destruct o' as [sd'|]; [|contradiction]. destruct Z as (Z1 & Z2 & Z3). split; [exact Z1|]. split; [congruence|]. rewrite Z3, W. apply used_cons.
    + apply pair_equal_spec in T as [T <-]. apply pair_equal_spec in T as [<- <-]. destruct (IH _ None _ _ _ I E) as (-> & -> & Z). split; [reflexivity|]. split; [reflexivity|exact Z].
Qed.
Lemma touch_like n1 n2 id m1 m2 o1 o2 : eqv m1 m2 -> pair2 o1 o2 -> accepts id o1 -> Permutation n1 n2 ->
  like3 (touch_loop n1 id m1 o1) (touch_loop n2 id m2 o2).
Proof.
  intros V T A P. assert (A2 : accepts id o2).
  { destruct o1 as [s1|], o2 as [s2|], id; cbn in T, A |- *; try contradiction; [|exact I]. destruct T as (_ & C & D & _), A as (_ & H). rewrite <- D. auto. }
  destruct (touch_loop n1 id m1 o1) as [[m1' o1'] r1] eqn:E1, (touch_loop n2 id m2 o2) as [[m2' o2'] r2] eqn:E2.
  destruct (touch_loop_to _ _ _ _ _ _ _ A E1) as (-> & -> & Z1), (touch_loop_to _ _ _ _ _ _ _ A2 E2) as (-> & -> & Z2).
  split; [exact V|]. split; [|reflexivity]. cbn [fst snd].
  destruct o1 as [s1|], o2 as [s2|], id; cbn in T; try contradiction; destruct o1' as [t1|], o2' as [t2|]; cbn in Z1, Z2; try contradiction; [|exact I].
  destruct T as (_ & _ & D & Q), Z1 as (Z1 & Z3 & Z5), Z2 as (Z2 & Z4 & Z6). split; [exact Z1|]. split; [exact Z2|]. split; [|congruence].
  rewrite Z5, Z6, D. apply used_perm, P.
Qed.

Definition without (names : list str) (d : database) : database :=
  set_vars d (filter (fun v => negb (existsb (str_eqb (v_name v)) names)) (d_vars d)).
Lemma filter_perm_names l1 l2 (vs : list var_row) : Permutation l1 l2 ->
  filter (fun v => negb (existsb (str_eqb (v_name v)) l1)) vs = filter (fun v => negb (existsb (str_eqb (v_name v)) l2)) vs.
Proof. intros P. apply filter_ext. intros v. rewrite (existsb_perm _ _ _ P). reflexivity. Qed.
Lemma without_cons x names d : without names (set_vars d (filter (fun v => negb (str_eqb (v_name v) x)) (d_vars d))) = without (x :: names) d.
Proof.
  unfold without, set_vars. cbn. f_equal. induction (d_vars d) as [|v vars IH]; [reflexivity|]. cbn.
  destruct (str_eqb (v_name v) x) eqn:E; cbn; [exact IH|]. destruct (existsb _ _); cbn; rewrite IH; reflexivity.
Qed.
Lemma purge_loop_to names : forall m o m' o' r, calm_odb o -> purge_loop names m o = (m', o', r) ->
  (forall y, vs_get m' y = if existsb (str_eqb y) names then None else vs_get m y) /\ r = Ok tt /\
  match o, o' with
  | None, None => True
  | Some sd, Some sd' => calm sd' /\ sd_pos sd' = sd_pos sd /\ sd_db sd' = without names (sd_db sd)
  | _, _ => False
  end.
Proof.
  induction names as [|x names IH]; intros m o m' o' r C E; cbn [purge_loop] in E.
  - apply pair_equal_spec in E as [E <-]. apply pair_equal_spec in E as [<- <-]. split; [reflexivity|]. split; [reflexivity|].
    destruct o as [sd|]; [|exact I]. split; [apply C; reflexivity|]. split; [reflexivity|]. unfold without, set_vars. destruct (sd_db sd); cbn. f_equal.
    induction d_vars; [reflexivity|cbn; congruence].
  - unfold vs_purge in E. cbv zeta in E. destruct o as [sd|].
    + unfold clear_variable in E. destruct (sd_call (tx_clear_variable x) sd) as [sd1 q] eqn:K.
      assert (Q : sd_pos sd1 = sd_pos sd).
      { clear -K. unfold sd_call in K. destruct (sd_faults sd) as [|[|] fs]; [| |]; cbn in K; apply pair_equal_spec in K as [<- _]; reflexivity. }
      destruct (calm_call _ _ _ _ (C sd eq_refl) K) as (C1 & W). cbn in W. destruct W as (-> & W). cbv iota in E.
      assert (C2 : calm_odb (Some sd1)) by (intros z [= <-]; exact C1).
      destruct (IH _ _ _ _ _ C2 E) as (A1 & -> & A2). split; [|split; [reflexivity|]].
      * intros y. rewrite A1, vs_get_remove. cbn [existsb]. destruct (str_eqb y x), (existsb _ _); reflexivity.
      * destruct o' as [sd'|]; [|contradiction]. destruct A2 as (A2 & A3 & A4). split; [exact A2|]. split; [congruence|]. rewrite A4, W. apply without_cons.
    + destruct (IH _ None _ _ _ ltac:(discriminate) E) as (A1 & -> & A2). split; [|split; [reflexivity|exact A2]].
      intros y. rewrite A1, vs_get_remove. cbn [existsb]. destruct (str_eqb y x), (existsb _ _); reflexivity.
Qed.
Lemma purge_like n1 n2 m1 m2 o1 o2 : eqv m1 m2 -> pair2 o1 o2 -> Permutation n1 n2 -> like3 (purge_loop n1 m1 o1) (purge_loop n2 m2 o2).
Proof.
  intros V T P.
  assert (C : calm_odb o1 /\ calm_odb o2) by (destruct o1, o2; cbn in T; try contradiction; split; intros z Ez; try discriminate Ez; injection Ez as <-; tauto).
  destruct (purge_loop n1 m1 o1) as [[m1' o1'] r1] eqn:E1, (purge_loop n2 m2 o2) as [[m2' o2'] r2] eqn:E2.
  destruct (purge_loop_to _ _ _ _ _ _ (proj1 C) E1) as (A1 & -> & B1), (purge_loop_to _ _ _ _ _ _ (proj2 C) E2) as (A2 & -> & B2).
  split; [intros y; cbn [fst]; rewrite A1, A2, V, (existsb_perm _ _ _ P); reflexivity|]. split; [|reflexivity]. cbn [fst snd].
  destruct o1 as [s1|], o2 as [s2|]; cbn in T; try contradiction; destruct o1' as [t1|], o2' as [t2|]; try contradiction; [|exact I].
  destruct T as (_ & _ & D & Q), B1 as (Z1 & Z3 & Z5), B2 as (Z2 & Z4 & Z6). split; [exact Z1|]. split; [exact Z2|]. split; [|congruence].
  rewrite Z5, Z6, D. unfold without. f_equal. apply filter_perm_names, P.
Qed.

(** /reloadvar *)
Definition row_of (d : database) (y : str) : str :=
  match tx_get_variable y d with Ok (Some v, _) => lit "Set " ++ y ++ lit " to " ++ show_ratio v | _ => y ++ lit " unchanged" end.
Definition fetched (d : database) (m : vstore) (y : str) : option Q :=
  match tx_get_variable y d with Ok (Some v, _) => Some v | _ => vs_get m y end.
Lemma row_of_nonempty d y : row_of d y <> [].
Proof. unfold row_of. destruct (tx_get_variable y d) as [[[v|] ?]| |]; try discriminate; destruct y; discriminate. Qed.
Lemma reload_loop_to names : forall out t m sd m' sd' r, calm sd -> rows_ok (sd_db sd) -> reload_loop names out t m sd = (m', sd', r) ->
  (forall y, vs_get m' y = if existsb (str_eqb y) names then fetched (sd_db sd) m y else vs_get m y) /\
  r = Ok (joined out (map (row_of (sd_db sd)) names), t ++ names) /\ calm sd' /\ sd_db sd' = sd_db sd /\ sd_pos sd' = sd_pos sd.
Proof.
  induction names as [|x names IH]; intros out t m sd m' sd' r C Hr E; cbn [reload_loop] in E.
  - apply pair_equal_spec in E as [E <-]. apply pair_equal_spec in E as [<- <-]. split; [reflexivity|]. rewrite app_nil_r. split; [|auto].
    destruct out; reflexivity.
  - cbv zeta in E. unfold vs_reload, get_variable in E. destruct (sd_call (tx_get_variable x) sd) as [sd1 o1] eqn:G. destruct (calm_call _ _ _ _ C G) as (C1 & K).
    assert (Q : sd_pos sd1 = sd_pos sd).
    { clear -G. unfold sd_call in G. destruct (sd_faults sd) as [|[|] fs]; [| |]; try (destruct (tx_get_variable x (sd_db sd)) as [[a d']|e|p]); apply pair_equal_spec in G as [<- _]; reflexivity. }
    assert (R : row_of (sd_db sd) x <> []) by apply row_of_nonempty. cbn [map]. rewrite <- (joined_step _ _ _ R).
    destruct (tx_get_variable_ok _ x Hr) as [(v & M & _)|(M & _)]; rewrite M in K; destruct K as (-> & K).
    + destruct (IH _ _ _ _ _ _ _ C1 ltac:(rewrite K; exact Hr) E) as (A & -> & D1 & D2 & D3). rewrite K in A |- *.
      split; [|split; [unfold row_of at 2; rewrite M, <- app_assoc; reflexivity|split; [exact D1|split; congruence]]].
      intros y. rewrite A. unfold fetched. cbn [existsb]. rewrite !vs_get_insert. destruct (str_eqb y x) eqn:Ey; cbn [orb]; [|reflexivity].
      apply str_eqb_spec in Ey. subst y. rewrite M. destruct (existsb _ _); reflexivity.
    + destruct (IH _ _ _ _ _ _ _ C1 ltac:(rewrite K; exact Hr) E) as (A & -> & D1 & D2 & D3). rewrite K in A |- *.
      split; [|split; [unfold row_of at 2; rewrite M, <- app_assoc; reflexivity|split; [exact D1|split; congruence]]].
      intros y. rewrite A. unfold fetched. cbn [existsb]. destruct (str_eqb y x) eqn:Ey; cbn [orb]; [|reflexivity].
      apply str_eqb_spec in Ey. subst y. rewrite M. destruct (existsb _ _); reflexivity.
Qed.
