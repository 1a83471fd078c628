(** ProofsDamage.v -- reading variables from a database file of any content. *)
From Verif Require Import Base Position Num TokenTypes Errors SavedData Variables Operations SyntaxTree.
From Verif Require Import SpecLex SpecDecimal ProofsShow SpecEval SpecDamage ProofsLex ProofsText ProofsNum ProofsRoot ProofsRoot2 ProofsPower ProofsParse3 ProofsEval ProofsEval2 SpecSyntax SpecGrammar ProofsEval3.
From Coq Require Import Qabs Qpower String Lqa Lia.
Local Open Scope Q_scope.

Lemma digits_value_eq s : forall acc, digits_value (Z.of_N acc) s = option_map Z.of_N (parse_digits 10 acc s).
Proof.
  induction s as [|c s IH]; intros acc; [reflexivity|]. cbn [digits_value parse_digits]. change c_underscore with 95%N.
  destruct (N.eqb c 95); [apply IH|]. unfold digit_val.
  destruct (N.leb 48 c && N.leb c 57)%bool eqn:D.
  - apply Bool.andb_true_iff in D as [D1 D2]. apply N.leb_le in D1, D2. cbv zeta. destruct (N.ltb_spec (c - 48) 10); [|lia].
    rewrite <- IH. f_equal. rewrite N2Z.inj_add, N2Z.inj_mul, N2Z.inj_sub by lia. change (Z.of_N 48) with 48%Z. change (Z.of_N 10) with 10%Z. lia.
  - cbv zeta. destruct (N.leb 97 c && N.leb c 122)%bool eqn:D1; [apply Bool.andb_true_iff in D1 as [A B]; apply N.leb_le in A, B; destruct (N.ltb_spec (c - 97 + 10) 10); [lia|reflexivity]|].
    destruct (N.leb 65 c && N.leb c 90)%bool eqn:D2; [apply Bool.andb_true_iff in D2 as [A B]; apply N.leb_le in A, B; destruct (N.ltb_spec (c - 65 + 10) 10); [lia|reflexivity]|]. reflexivity.
Qed.
Lemma digits_first c rest n : c <> 95%N -> digits_value 0 (c :: rest) = Some n -> (48 <= c <= 57)%N.
Proof.
  intros U. cbn [digits_value]. destruct (N.eqb_spec c 95); [contradiction|]. destruct (N.leb_spec 48 c), (N.leb_spec c 57); cbn [andb]; try discriminate. lia.
Qed.
Lemma biguint_plain (c : char) (rest : str) : c <> 43%N -> biguint_from_str (c :: rest) 10 = if N.eqb c 95 then None else parse_digits 10 0 (c :: rest).
Proof. intros H. unfold biguint_from_str. change c_plus with 43%N. destruct (N.eqb_spec c 43); [contradiction|]. reflexivity. Qed.
Lemma biguint_plus (c : char) (rest : str) : c <> 43%N -> biguint_from_str (@cons char 43%N (c :: rest)) 10 = if N.eqb c 95 then None else parse_digits 10 0 (c :: rest).
Proof. intros H. unfold biguint_from_str. change c_plus with 43%N. cbn [N.eqb Pos.eqb]. destruct (N.eqb_spec c 43); [contradiction|]. reflexivity. Qed.

(** [parse_bytes] reads exactly the integer texts. *)
Lemma parse_integer E s : exists o, @parse_bytes E s 10 = Ok o /\ (forall z, o = Some z <-> integer_text s z).
Proof.
  unfold parse_bytes. change (radix_ok 10) with true. cbv iota. eexists. split; [reflexivity|]. intros z.
  assert (P : forall (c : char) (rest : str), c <> 43%N -> forall n, (if N.eqb c 95 then None else parse_digits 10 0 (c :: rest)) = Some n <->
    c <> 95%N /\ digits_value 0 (c :: rest) = Some (Z.of_N n)).
  { intros c rest Hc n. change 0%Z with (Z.of_N 0). rewrite digits_value_eq. destruct (N.eqb_spec c 95) as [->|U]; [split; [discriminate|tauto]|].
    destruct (parse_digits 10 0 (c :: rest)) as [k|]; cbn [option_map]; [|split; [discriminate|intros [_ H]; discriminate]].
    split; [intros [= ->]; auto|]. intros [_ [= H]]. f_equal. lia. }
  assert (N0 : forall c rest n, digits_value 0 (c :: rest) = Some n -> exists k, n = Z.of_N k).
  { intros c rest n. change 0%Z with (Z.of_N 0). rewrite digits_value_eq. destruct (parse_digits 10 0 (c :: rest)); cbn; [|discriminate]. intros [= <-]. eauto. }
  destruct s as [|c tail].
  { split; [discriminate|]. intros H. inversion H. }
  change c_minus with 45%N. change c_plus with 43%N. destruct (N.eqb_spec c 45) as [->|C45].
  - destruct tail as [|c2 t].
    { split; [discriminate|]. intros H. inversion H; subst. match goal with D : digits_value _ _ = _ |- _ => discriminate D end. }
    destruct (N.eqb_spec c2 43) as [->|C43].
    { split; [discriminate|]. intros H. inversion H; subst; match goal with D : digits_value _ _ = _ |- _ => discriminate D end. }
    cbv beta zeta iota. rewrite (biguint_plain c2 t C43). split.
    + destruct (if N.eqb c2 95 then None else parse_digits 10 0 (c2 :: t)) as [n|] eqn:E1; [|discriminate]. cbn [option_map]. intros [= <-].
      apply (P c2 t C43) in E1 as [U D]. constructor; assumption.
    + intros H. inversion H as [c rest n U D|c rest n U D|c rest n U D]; subst; [discriminate D|]. destruct (N0 _ _ _ D) as (k & ->).
      rewrite (proj2 (P c2 t C43 k) (conj U D)). reflexivity.
  - destruct (N.eqb_spec c 43) as [->|C43].
    + destruct tail as [|c2 t].
      { split; [discriminate|]. intros H. inversion H; subst; match goal with D : digits_value _ _ = _ |- _ => discriminate D end. }
      destruct (N.eqb_spec c2 43) as [->|C43].
      { split; [discriminate|]. intros H. inversion H; subst; match goal with D : digits_value _ _ = _ |- _ => discriminate D end. }
      rewrite (biguint_plus c2 t C43). split.
      * destruct (if N.eqb c2 95 then None else parse_digits 10 0 (c2 :: t)) as [n|] eqn:E1; [|discriminate]. cbn [option_map]. intros [= <-].
        apply (P c2 t C43) in E1 as [U D]. constructor; assumption.
      * intros H. inversion H as [c rest n U D|c rest n U D|c rest n U D]; subst; [discriminate D|]. destruct (N0 _ _ _ D) as (k & ->).
        rewrite (proj2 (P c2 t C43 k) (conj U D)). reflexivity.
    + rewrite (biguint_plain c tail C43). split.
      * destruct (if N.eqb c 95 then None else parse_digits 10 0 (c :: tail)) as [n|] eqn:E1; [|discriminate]. cbn [option_map]. intros [= <-].
        apply (P c tail C43) in E1 as [U D]. constructor; assumption.
      * intros H. inversion H as [c' rest n U D|c' rest n U D|c' rest n U D]; subst; [|congruence|congruence]. destruct (N0 _ _ _ D) as (k & ->).
        rewrite (proj2 (P c tail C43 k) (conj U D)). reflexivity.
Qed.

Lemma integer_text_unique s n m : integer_text s n -> integer_text s m -> n = m.
Proof.
  intros A B. destruct (parse_integer unit s) as (o & _ & H). apply H in A. apply H in B. congruence.
Qed.

Lemma ratio_new_spec E n m : m <> 0%Z -> exists v, @ratio_new E n m = Ok v /\ v * inject_Z m == inject_Z n /\ canon v.
Proof.
  intros H. destruct m as [|q|q]; [contradiction| |]; cbn [ratio_new]; eexists; (split; [reflexivity|]); (split; [|apply canon_Qred]); rewrite Qred_correct; unfold Qeq; cbn; lia.
Qed.

(** The outcome of reading, and that the file is left alone. *)
Lemma tx_get_reading d x : exists o, tx_get_variable x d = bind o (fun v => Ok (v, d)) /\ reading d x o.
Proof.
  unfold tx_get_variable. change VARIABLE_STORAGE_RADIX with 10%N. destruct (find_var (d_vars d) x) as [r|] eqn:F.
  2:{ exists (Ok None). split; [reflexivity|]. apply rd_absent. intros r Hr. eapply find_var_none; eauto. }
  apply find_var_some in F as [Hi Hx]. destruct (parse_integer runtime_error (v_numer r)) as (o & -> & Ho). cbn [bind].
  destruct o as [n|].
  2:{ eexists (Err _). split; [reflexivity|]. apply (rd_numerator d x r Hi Hx). intros n Hn. apply Ho in Hn. discriminate. }
  pose proof (proj1 (Ho n) eq_refl) as Hn. destruct (parse_integer runtime_error (v_denom r)) as (o & -> & Ho'). cbn [bind].
  destruct o as [m|].
  2:{ eexists (Err _). split; [reflexivity|]. apply (rd_denominator d x r n Hi Hx Hn). intros m Hm. apply Ho' in Hm. discriminate. }
  pose proof (proj1 (Ho' m) eq_refl) as Hm. destruct (Z.eq_dec m 0) as [->|NZ].
  - exists (Panic DivideByZero). split; [reflexivity|]. exact (rd_zero d x r n Hi Hx Hn Hm).
  - destruct (ratio_new_spec runtime_error n m NZ) as (v & -> & V & C). cbn [bind]. exists (Ok (Some v)). split; [reflexivity|].
    exact (rd_value d x r n m v Hi Hx Hn Hm NZ V C).
Qed.

Lemma reading_unique d x o o' : one_row_each d -> reading d x o -> reading d x o' -> o = o'.
Proof.
  intros U H H'.
  assert (K : forall r r', In r (d_vars d) -> v_name r = x -> In r' (d_vars d) -> v_name r' = x -> r = r')
    by (intros; eapply nodup_names; eauto; congruence).
  destruct H as [A|r n m v Hi Hx Hn Hm NZ V C|r Hi Hx Hn|r n Hi Hx Hn Hm|r n Hi Hx Hn Hm]; destruct H' as [A'|r' n' m' v' Hi' Hx' Hn' Hm' NZ' V' C'|r' Hi' Hx' Hn'|r' n' Hi' Hx' Hn' Hm'|r' n' Hi' Hx' Hn' Hm'];
    try reflexivity; try (exfalso; eapply A; eassumption); try (exfalso; eapply A'; eassumption);
    assert (r' = r) as -> by auto; try reflexivity; try (exfalso; eapply Hn; eassumption); try (exfalso; eapply Hn'; eassumption);
    try (exfalso; eapply Hm; eassumption); try (exfalso; eapply Hm'; eassumption);
    rewrite ?(integer_text_unique _ _ _ Hn' Hn), ?(integer_text_unique _ _ _ Hm' Hm) in *; try congruence.
  - do 2 f_equal. apply canon_inj; auto. assert (E : v * inject_Z m == v' * inject_Z m) by (rewrite V, V'; reflexivity).
    apply Qmult_inj_r in E; [exact E|]. intros Z0. apply NZ. unfold Qeq in Z0. cbn in Z0. lia.
Qed.

(** ** Evaluation *)

(** Between two states: nothing but values copied from the file into memory, and failures consumed. *)
Definition reads_on (s s' : env) : Prop :=
  match e_vars s, e_vars s' with
  | None, None => True
  | Some m, Some m' =>
      (forall x v, vs_get m x = Some v -> vs_get m' x = Some v) /\
      (forall x v, vs_get m x = None -> vs_get m' x = Some v ->
         exists sd, e_db s = Some sd /\ reading (sd_db sd) x (Ok (Some v)))
  | _, _ => False
  end /\
  match e_db s, e_db s' with
  | None, None => True
  | Some sd, Some sd' => sd_db sd = sd_db sd' /\ sd_pos sd = sd_pos sd' /\
      exists consumed, (sd_faults sd = consumed ++ sd_faults sd')%list
  | _, _ => False
  end.
Lemma reads_refl s : reads_on s s.
Proof.
  split.
  - destruct (e_vars s); [|exact I]. split; [auto|]. congruence.
  - destruct (e_db s); [|exact I]. split; [reflexivity|split; [reflexivity|]]. exists []. reflexivity.
Qed.
Lemma reads_trans a b c : reads_on a b -> reads_on b c -> reads_on a c.
Proof.
  intros [V1 D1] [V2 D2]. split.
  - destruct (e_vars a) as [m1|], (e_vars b) as [m2|], (e_vars c) as [m3|]; try contradiction; [|exact I].
    destruct V1 as [A1 B1], V2 as [A2 B2]. split; [auto|]. intros x v Hn Hs.
    destruct (vs_get m2 x) as [w|] eqn:E.
    + assert (w = v) by (apply A2 in E; congruence). subst w. apply B1; assumption.
    + destruct (B2 x v E Hs) as (sd & Es & Ho). rewrite Es in D1.
      destruct (e_db a) as [sda|]; [|contradiction]. exists sda. split; [reflexivity|].
      destruct D1 as (-> & _). exact Ho.
  - destruct (e_db a) as [x1|], (e_db b) as [x2|], (e_db c) as [x3|]; try contradiction; [|exact I].
    destruct D1 as (A1 & P1 & c1 & F1), D2 as (A2 & P2 & c2 & F2).
    split; [congruence|split; [congruence|]]. exists (c1 ++ c2)%list. rewrite F1, F2, app_assoc. reflexivity.
Qed.
Lemma reading_canon d x v : reading d x (Ok (Some v)) -> canon v.
Proof. intros H. inversion H; assumption. Qed.
Lemma reads_ok s s' : memory_ok s -> reads_on s s' -> memory_ok s'.
Proof.
  intros O [V D] m' x v Em Hv. rewrite Em in V. destruct (e_vars s) as [m|] eqn:Es; [|contradiction].
  destruct V as [A B]. destruct (vs_get m x) as [w|] eqn:E.
  - pose proof (A _ _ E) as E'. assert (w = v) by congruence. subst w. eapply O; eauto.
  - destruct (B x v E Hv) as (sd & _ & R). exact (reading_canon _ _ _ R).
Qed.
Lemma reads_result s s' x p r : reads_on s s' -> variable_reading s' x p r -> variable_reading s x p r.
Proof.
  intros [V D] H.
  assert (K : forall m', e_vars s' = Some m' -> exists m, e_vars s = Some m /\ (vs_get m' x = None -> vs_get m x = None)).
  { intros m' Em. rewrite Em in V. destruct (e_vars s) as [m|]; [|contradiction]. exists m. split; [reflexivity|]. intros N.
    destruct (vs_get m x) as [w|] eqn:E; [|reflexivity]. apply (proj1 V) in E. congruence. }
  assert (L : forall sd', e_db s' = Some sd' -> exists sd, e_db s = Some sd /\ sd_db sd = sd_db sd' /\ (In true (sd_faults sd') -> In true (sd_faults sd))).
  { intros sd' Es. rewrite Es in D. destruct (e_db s) as [sd|]; [|contradiction]. exists sd. split; [reflexivity|]. destruct D as (A & _ & c & F). split; [exact A|].
    rewrite F. intros I. apply in_app_iff. right. exact I. }
  destruct H as [E|m v Em Hv|m Em Hn Es|m sd v Em Hn Es R|m sd Em Hn Es R|m sd e Em Hn Es R|m sd q Em Hn Es R|m sd Em Hn Es F].
  - rewrite E in V. destruct (e_vars s) eqn:E'; [contradiction|]. apply vd_no_store. exact E'.
  - rewrite Em in V. destruct (e_vars s) as [m0|] eqn:E'; [|contradiction]. destruct V as [A B].
    destruct (vs_get m0 x) as [w|] eqn:E.
    + pose proof (A _ _ E) as E2. assert (w = v) as -> by congruence. exact (vd_memory s x p m0 v E' E).
    + destruct (B x v E Hv) as (sd & Es & R). exact (vd_value s x p m0 sd v E' E Es R).
  - destruct (K m Em) as (m0 & E0 & N). apply (vd_no_file s x p m0 E0 (N Hn)). rewrite Es in D. destruct (e_db s); [contradiction|reflexivity].
  - destruct (K m Em) as (m0 & E0 & N), (L sd Es) as (sd0 & S0 & DD & _). rewrite <- DD in R. exact (vd_value s x p m0 sd0 v E0 (N Hn) S0 R).
  - destruct (K m Em) as (m0 & E0 & N), (L sd Es) as (sd0 & S0 & DD & _). rewrite <- DD in R. exact (vd_absent s x p m0 sd0 E0 (N Hn) S0 R).
  - destruct (K m Em) as (m0 & E0 & N), (L sd Es) as (sd0 & S0 & DD & _). rewrite <- DD in R. exact (vd_refused s x p m0 sd0 e E0 (N Hn) S0 R).
  - destruct (K m Em) as (m0 & E0 & N), (L sd Es) as (sd0 & S0 & DD & _). rewrite <- DD in R. exact (vd_crash s x p m0 sd0 q E0 (N Hn) S0 R).
  - destruct (K m Em) as (m0 & E0 & N), (L sd Es) as (sd0 & S0 & DD & FF). exact (vd_fault s x p m0 sd0 E0 (N Hn) S0 (FF F)).
Qed.

Lemma exec_variable_reading x p s s' o : memory_ok s -> exec_variable x p s = (s', o) ->
  reads_on s s' /\ variable_reading s x p (result_of o) /\ (forall v, o = Ok v -> canon v).
Proof.
  intros O1. unfold exec_variable. destruct s as [ev ed]. unfold memory_ok in O1. cbn [e_vars e_db] in *.
  destruct ev as [m|].
  2:{ intros H. apply pair_equal_spec in H as [<- <-]. split; [apply reads_refl|]. split; [|discriminate]. apply vd_no_store. reflexivity. }
  unfold vs_lookup. destruct (vs_get m x) as [v|] eqn:E.
  { intros H. apply pair_equal_spec in H as [<- <-]. split; [apply reads_refl|]. split.
    - apply (vd_memory _ _ _ m v); [reflexivity|exact E].
    - intros w Hw. injection Hw as <-. eapply O1; [reflexivity|exact E]. }
  destruct ed as [sd|].
  2:{ intros H. apply pair_equal_spec in H as [<- <-]. split; [apply reads_refl|]. split; [|discriminate]. apply (vd_no_file _ _ _ m); auto. }
  unfold vs_reload, get_variable, sd_call.
  assert (W : forall fs, exists c, sd_faults sd = (c ++ fs)%list -> reads_on (mkEnv (Some m) (Some sd)) (mkEnv (Some m) (Some (mkSD (sd_db sd) (sd_pos sd) fs)))).
  { intros fs. exists []. intros F. split; cbn [e_vars e_db]; [split; [auto|congruence]|]. cbn [sd_db sd_pos sd_faults]. repeat split. exists []. exact F. }
  assert (Same : forall fs, (exists c, sd_faults sd = (c ++ fs)%list) -> reads_on (mkEnv (Some m) (Some sd)) (mkEnv (Some m) (Some (mkSD (sd_db sd) (sd_pos sd) fs)))).
  { intros fs F. split; cbn [e_vars e_db]; [split; [auto|congruence]|]. cbn [sd_db sd_pos sd_faults]. repeat split. exact F. }
  assert (Go : forall fs, (exists c, sd_faults sd = (c ++ fs)%list) -> forall s' o,
    (let '(vars', db', r) := (let '(vars', db', r) := match (match tx_get_variable x (sd_db sd) with
        | Ok (a, d') => (mkSD d' (sd_pos sd) fs, Ok a)
        | Err e => (mkSD (sd_db sd) (sd_pos sd) fs, Err e)
        | Panic p => (mkSD (sd_db sd) (sd_pos sd) fs, Panic p) end) with
        | (db', Ok (Some v)) => (vs_insert m x v, db', Ok (Some v))
        | (db', Ok None) => (m, db', Ok None)
        | (db', Err e) => (m, db', Err e)
        | (db', Panic p) => (m, db', Panic p) end in (vars', Some db', r)) in
      (mkEnv (Some vars') db', match r with Ok (Some v) => Ok v | Ok None => Err (fail_math (UnknownVariable x) p) | Err e => Err (RuntimeError e) | Panic q => Panic q end)) = (s', o) ->
    reads_on (mkEnv (Some m) (Some sd)) s' /\ variable_reading (mkEnv (Some m) (Some sd)) x p (result_of o) /\ (forall v, o = Ok v -> canon v)).
  { intros fs F s1 o1. destruct (tx_get_reading (sd_db sd) x) as (r & -> & R). destruct r as [[v|]|e|q]; cbn [bind]; intros H; apply pair_equal_spec in H as [<- <-].
    - split; [|split; [exact (vd_value (mkEnv (Some m) (Some sd)) x p m sd v eq_refl E eq_refl R)|intros w Hw; injection Hw as <-; exact (reading_canon _ _ _ R)]].
      split; cbn [e_vars e_db].
      + split; intros y w; rewrite vs_get_insert.
        * intros Hy. destruct (str_eqb y x) eqn:Ey; [apply str_eqb_spec in Ey; subst; congruence|exact Hy].
        * intros Hy Hw. destruct (str_eqb y x) eqn:Ey; [|congruence]. apply str_eqb_spec in Ey. subst y. injection Hw as <-. exists sd. auto.
      + cbn [sd_db sd_pos sd_faults]. repeat split. exact F.
    - split; [exact (Same fs F)|]. split; [exact (vd_absent (mkEnv (Some m) (Some sd)) x p m sd eq_refl E eq_refl R)|discriminate].
    - split; [exact (Same fs F)|]. split; [exact (vd_refused (mkEnv (Some m) (Some sd)) x p m sd e eq_refl E eq_refl R)|discriminate].
    - split; [exact (Same fs F)|]. split; [exact (vd_crash (mkEnv (Some m) (Some sd)) x p m sd q eq_refl E eq_refl R)|discriminate]. }
  clear W. destruct (sd_faults sd) as [|[] fs] eqn:Ef.
  - apply Go. exists []. reflexivity.
  - intros H. apply pair_equal_spec in H as [<- <-]. split; [apply Same; exists [true]; reflexivity|].
    split; [|discriminate]. apply (vd_fault (mkEnv (Some m) (Some sd)) x p m sd eq_refl E eq_refl). rewrite Ef. left. reflexivity.
  - apply Go. exists [false]. reflexivity.
Qed.

Section Sound.
  Context (pr : profile) (a : args) (power : position -> Q -> Q -> result -> Prop).
  Hypothesis Hpow : forall p x y, canon x -> canon y ->
    power p x y (result_of (exec_power pr a p x y)) /\ (forall v, exec_power pr a p x y = Ok v -> canon v).
  Context (s0 : env) (Hok : memory_ok s0).
  Let means := meaning (variable_reading s0) power.

  Definition damage_at (n : node) : Prop := forall s, reads_on s0 s -> forall s' o, exec pr a n s = (s', o) ->
    reads_on s0 s' /\ means n (result_of o) /\ (forall v, o = Ok v -> canon v).
  Definition damage_list (ns : list node) (o : outcome failure (list Q)) : Prop :=
    match o with
    | Ok qs => meanings (variable_reading s0) power ns qs /\ (forall v, In v qs -> canon v)
    | Err e => first_stop (variable_reading s0) power ns (Fails e)
    | Panic _ => first_stop (variable_reading s0) power ns Crashes
    end.
  Lemma damage_list_sound ns : (forall n, In n ns -> damage_at n) -> forall s, reads_on s0 s -> forall s' o,
    exec_list pr a ns s = (s', o) -> reads_on s0 s' /\ damage_list ns o.
  Proof.
    induction ns as [|n ns IH]; intros Hn s G s' o.
    - cbn [exec_list]. intros H. apply pair_equal_spec in H as [<- <-]. split; [exact G|]. split; [constructor|]. intros v [].
    - rewrite exec_list_cons. destruct (exec pr a n s) as [s1 o1] eqn:E1.
      destruct (Hn n (or_introl eq_refl) s G s1 o1 E1) as (G1 & M1 & C1).
      destruct o1 as [v|e|q]; cbn [then_do].
      + destruct (exec_list pr a ns s1) as [s2 o2] eqn:E2.
        destruct (IH (fun m Hm => Hn m (or_intror Hm)) s1 G1 s2 o2 E2) as (G2 & R2).
        destruct o2 as [vs|e|q]; cbn [then_do]; intros H; apply pair_equal_spec in H as [<- <-];
          (split; [exact G2|]); cbn [damage_list] in *.
        * destruct R2 as [R2 C2]. split; [constructor; assumption|]. intros w [<-|Hw]; [apply C1; reflexivity|auto].
        * eapply fs_later; [exact M1|exact R2].
        * eapply fs_later; [exact M1|exact R2].
      + intros H. apply pair_equal_spec in H as [<- <-]. split; [exact G1|]. apply fs_here; [exact M1|exact I].
      + intros H. apply pair_equal_spec in H as [<- <-]. split; [exact G1|]. apply fs_here; [exact M1|exact I].
  Qed.
  Lemma damage_sound n : literals_ok n -> damage_at n.
  Proof.
    induction 1 as [v p C|x p|o p n _ IH|o p l r _ IHl _ IHr|f p ns w _ IH|p q n _ IH]; intros s G s' out.
    - cbn [exec]. intros H. apply pair_equal_spec in H as [<- <-]. split; [exact G|]. split; [constructor; reflexivity|].
      intros w H; injection H as <-. exact C.
    - cbn [exec]. intros H. destruct (exec_variable_reading x p s s' out (reads_ok _ _ Hok G) H) as (G1 & R & C).
      split; [eapply reads_trans; eauto|]. split; [constructor; eapply reads_result; eauto|exact C].
    - cbn [exec]. destruct (exec pr a n s) as [s1 o1] eqn:E. destruct (IH s G s1 o1 E) as (G1 & M1 & C1).
      destruct o1 as [v|e|q]; cbn [then_do]; intros H; apply pair_equal_spec in H as [<- <-]; (split; [exact G1|]).
      + destruct (exec_unary_sound pr a power Hpow o p v (C1 v eq_refl)) as [U C]. split; [eapply m_unary; eauto|exact C].
      + split; [apply m_unary_stop; [exact M1|exact I]|discriminate].
      + split; [apply m_unary_stop; [exact M1|exact I]|discriminate].
    - cbn [exec]. destruct (exec pr a l s) as [s1 o1] eqn:E. destruct (IHl s G s1 o1 E) as (G1 & M1 & C1).
      destruct o1 as [v|e|q]; cbn [then_do].
      + destruct (exec pr a r s1) as [s2 o2] eqn:E2. destruct (IHr s1 G1 s2 o2 E2) as (G2 & M2 & C2).
        destruct o2 as [v2|e|q]; cbn [then_do]; intros H; apply pair_equal_spec in H as [<- <-]; (split; [exact G2|]).
        * destruct (exec_binary_sound pr a power Hpow o p v v2 (C1 v eq_refl) (C2 v2 eq_refl)) as [U C]. split; [eapply m_binary; eauto|exact C].
        * split; [eapply m_binary_right; [exact M1|exact M2|exact I]|discriminate].
        * split; [eapply m_binary_right; [exact M1|exact M2|exact I]|discriminate].
      + intros H; apply pair_equal_spec in H as [<- <-]; (split; [exact G1|]). split; [apply m_binary_left; [exact M1|exact I]|discriminate].
      + intros H; apply pair_equal_spec in H as [<- <-]; (split; [exact G1|]). split; [apply m_binary_left; [exact M1|exact I]|discriminate].
    - rewrite exec_fun. destruct (exec_list pr a ns s) as [s1 o1] eqn:E.
      destruct (damage_list_sound ns IH s G s1 o1 E) as (G1 & R1).
      destruct o1 as [vs|e|q]; cbn [then_do damage_list] in *; intros H; apply pair_equal_spec in H as [<- <-]; (split; [exact G1|]).
      + destruct R1 as [R1 C1]. destruct (exec_function_sound f p vs C1) as [F1 F2].
        destruct vs as [|v vs].
        * rewrite (F2 eq_refl). inversion R1; subst. split; [constructor|discriminate].
        * destruct F1 as (v' & -> & C' & X); [discriminate|]. split; [eapply m_function; eauto|].
          intros w' H; injection H as <-. exact C'.
      + split; [apply m_function_stop; exact R1|discriminate].
      + split; [apply m_function_stop; exact R1|discriminate].
    - cbn [exec]. intros H. destruct (IH s G s' out H) as (G1 & M1 & C1). split; [exact G1|]. split; [constructor; exact M1|exact C1].
  Qed.
End Sound.

Lemma exec_damage pr a n s s' o : settings_ok a -> memory_ok s -> literals_ok n -> exec pr a n s = (s', o) ->
  reads_on s s' /\ meaning (variable_reading s) (power_with pr a) n (result_of o) /\ (forall v, o = Ok v -> canon v).
Proof. intros Ha Hs Hn H. exact (damage_sound pr a (power_with pr a) (exec_power_sound pr a Ha) s Hs n Hn s (reads_refl s) s' o H). Qed.

Lemma reading_panic d x q : reading d x (Panic q) -> exists r n, In r (d_vars d) /\ v_name r = x /\ integer_text (v_numer r) n /\ integer_text (v_denom r) 0.
Proof. intros H. inversion H; subst. eauto 6. Qed.

Lemma damage_origin pr a s n k : digits_kept pr a = Some k -> meaning (variable_reading s) (power_with pr a) n Crashes ->
  exists m x y, subnode m n /\
    ((exists p l r, m = NBin Modulus p l r /\ y == 0 /\
        meaning (variable_reading s) (power_with pr a) l (Value x) /\ meaning (variable_reading s) (power_with pr a) r (Value y)) \/
     (exists p l r, m = NBin Exponent p l r /\ crashing_power x y /\
        meaning (variable_reading s) (power_with pr a) l (Value x) /\ meaning (variable_reading s) (power_with pr a) r (Value y)) \/
     (exists p m', m = NUn SquareRoot p m' /\ crashing_power x (1 # 2) /\ meaning (variable_reading s) (power_with pr a) m' (Value x)) \/
     (exists p z sd row i, m = NVar z p /\ e_db s = Some sd /\ In row (d_vars (sd_db sd)) /\ v_name row = z /\
        integer_text (v_numer row) i /\ integer_text (v_denom row) 0)).
Proof.
  intros Hk M. destruct (proj1 (meaning_origin _ _) _ _ M I) as (m & Hm & O). inversion O as [x q r V|o q m' x r M' U|o q l r x y r0 Ml Mr B|f q w E]; subst.
  - inversion V; subst. match goal with R : reading _ _ _ |- _ => apply reading_panic in R as (row & i & A & B & C & D) end.
    eexists _, 0, 0. split; [exact Hm|]. right; right; right. eauto 12.
  - inversion U; subst. apply power_with_crash in H as [H|H]; [|congruence].
    eexists _, x, 0. split; [exact Hm|]. right; right; left. eauto 6.
  - inversion B; subst.
    + eexists _, x, y. split; [exact Hm|]. left. eauto 8.
    + apply power_with_crash in H as [H|H]; [|congruence]. eexists _, x, y. split; [exact Hm|]. right; left. eauto 8.
Qed.

(** ** The other calls *)
Definition no_crash {A} (t : tx A) : Prop := forall d q, t d <> Panic q.
Lemma nc_bind A B (t : tx A) (f : A -> tx B) : no_crash t -> (forall a, no_crash (f a)) -> no_crash (tx_bind t f).
Proof. intros T F d q. unfold tx_bind. destruct (t d) as [[a d']|e|p] eqn:E; [apply F|discriminate|]. intros [= ->]. exact (T d q E). Qed.
Lemma nc_ret A (a : A) : no_crash (tx_ret a). Proof. intros d q. discriminate. Qed.
Lemma nc_fail A e : no_crash (@tx_fail A e). Proof. intros d q. discriminate. Qed.
Ltac nc := intros ? ?; repeat match goal with |- context [match ?x with _ => _ end] => destruct x end; discriminate.
Lemma nc_meta_ignore k v : no_crash (sql_meta_insert_ignore k v). Proof. unfold sql_meta_insert_ignore. nc. Qed.
Lemma nc_meta_replace k v : no_crash (sql_meta_insert_replace k v). Proof. unfold sql_meta_insert_replace. nc. Qed.
Lemma nc_meta_select k : no_crash (sql_meta_select k). Proof. unfold sql_meta_select. nc. Qed.
Lemma nc_tag_ignore k : no_crash (sql_tag_insert_ignore k). Proof. unfold sql_tag_insert_ignore. nc. Qed.
Lemma nc_tag_select k : no_crash (sql_tag_select k). Proof. unfold sql_tag_select. nc. Qed.
Lemma nc_tag_update k v : no_crash (sql_tag_update k v). Proof. unfold sql_tag_update. nc. Qed.
Lemma nc_not_null t : no_crash t -> no_crash (not_null t).
Proof. intros H. unfold not_null. apply nc_bind; [exact H|]. intros [z|]; [apply nc_ret|apply nc_fail]. Qed.
Lemma nc_insert i p : no_crash (sql_hist_insert i p). Proof. unfold sql_hist_insert. nc. Qed.
Lemma nc_set_next i p : no_crash (sql_hist_set_next i p). Proof. unfold sql_hist_set_next. nc. Qed.

(** The eviction loop makes progress on any content. *)
Lemma evict_progress fuel : forall max d q, (List.length (d_hist d) < fuel)%nat -> tx_evict_loop fuel max d <> Panic q.
Proof.
  induction fuel as [|f IH]; intros max d q L; [lia|]. cbn [tx_evict_loop]. unfold tx_bind at 1, sql_hist_count.
  destruct (Z.leb (Z.of_nat (List.length (d_hist d))) max); [discriminate|].
  unfold tx_bind at 1. destruct (not_null (sql_tag_select tag_Back) d) as [[ob d1]|e|p] eqn:E1; [|discriminate|intros [= ->]; exact (nc_not_null _ (nc_tag_select _) _ _ E1)].
  assert (d1 = d) as ->.
  { revert E1. unfold not_null, tx_bind, sql_tag_select. destruct (zassoc tag_Back (d_tags d)) as [[z|]|]; try discriminate. intros E; injection E as _ <-. reflexivity. }
  unfold tx_bind at 1. destruct (not_null (sql_hist_next ob) d) as [[nb d1]|e|p] eqn:E2; [|discriminate|].
  2:{ intros [= ->]. revert E2. unfold not_null, tx_bind, sql_hist_next. destruct (find_hist (d_hist d) ob) as [r|]; [|discriminate]. destruct (h_next r); discriminate. }
  assert (d1 = d /\ exists r, find_hist (d_hist d) ob = Some r) as [-> (r & F)].
  { revert E2. unfold not_null, tx_bind, sql_hist_next. destruct (find_hist (d_hist d) ob) as [r|]; [|discriminate]. destruct (h_next r); try discriminate. intros E; injection E as _ <-. eauto. }
  assert (Hi : In ob (hist_ids (d_hist d))).
  { clear - F. revert F. induction (d_hist d) as [|a l IH]; [discriminate|]. cbn [find_hist hist_ids map]. destruct (Z.eqb_spec (h_id a) ob); [left; assumption|]. intros F. right. exact (IH F). }
  unfold tx_bind at 1, sql_hist_clear_prev. set (d2 := set_hist d _).
  assert (I2 : hist_ids (d_hist d2) = hist_ids (d_hist d)).
  { unfold d2, hist_ids. cbn [set_hist d_hist]. rewrite map_map. apply map_ext. intros a. destruct (Z.eqb (h_id a) nb); reflexivity. }
  unfold tx_bind at 1. destruct (sql_tag_update tag_Back (Some nb) d2) as [[u d3]|e|p] eqn:E3; [|discriminate|intros [= ->]; exact (nc_tag_update _ _ _ _ E3)].
  assert (I3 : d_hist d3 = d_hist d2).
  { revert E3. unfold sql_tag_update. destruct (zassoc tag_Back (d_tags d2)); [|intros E; injection E as _ <-; reflexivity].
    destruct (fk_ok (d_hist d2) (Some nb)); [|discriminate]. intros E; injection E as _ <-. reflexivity. }
  unfold tx_bind at 1, sql_hist_delete. destruct (_ && _)%bool; [discriminate|]. apply IH. cbn [d_hist].
  rewrite I3. rewrite <- (map_length h_id (d_hist d)) in L. fold (hist_ids (d_hist d)) in L. rewrite <- I2 in L. rewrite <- I2 in Hi. unfold hist_ids in L. rewrite map_length in L.
  enough (List.length (filter (fun r0 => negb (Z.eqb (h_id r0) ob)) (d_hist d2)) < List.length (d_hist d2))%nat by lia.
  clear - Hi. induction (d_hist d2) as [|a l IH]; [destruct Hi|]. cbn [filter List.length].
  assert (LE : (List.length (filter (fun r0 => negb (Z.eqb (h_id r0) ob)) l) <= List.length l)%nat).
  { clear. induction l as [|b l IHl]; [reflexivity|]. cbn [filter List.length]. destruct (negb _); cbn [List.length]; lia. }
  destruct (Z.eqb_spec (h_id a) ob); cbn [negb List.length]; [lia|]. destruct Hi as [Hi|Hi]; [contradiction|]. specialize (IH Hi). lia.
Qed.
Lemma nc_enforce : no_crash tx_enforce.
Proof.
  unfold tx_enforce. apply nc_bind; [apply nc_meta_select|]. intros max. destruct (validate_max_history_size max); [apply nc_fail|].
  intros d q. apply evict_progress. lia.
Qed.
Lemma nc_add i : no_crash (tx_add i).
Proof.
  unfold tx_add. apply nc_bind; [apply nc_tag_select|]. intros o. apply nc_bind; [apply nc_insert|]. intros id. apply nc_bind; [apply nc_tag_update|]. intros _.
  apply nc_bind; [destruct o; [apply nc_set_next|apply nc_tag_update]|]. intros _. apply nc_bind; [apply nc_enforce|]. intros _. apply nc_ret.
Qed.
Lemma nc_set_variable x v id : no_crash (tx_set_variable x v id).
Proof. intros d q. unfold tx_set_variable, to_str_radix. change (radix_ok VARIABLE_STORAGE_RADIX) with true. cbn [bind]. unfold sql_var_insert. destruct (has_id _ _); discriminate. Qed.
Lemma nc_touch x id : no_crash (tx_touch_variable x id). Proof. unfold tx_touch_variable, sql_var_touch. nc. Qed.
Lemma nc_clear x : no_crash (tx_clear_variable x). Proof. unfold tx_clear_variable, sql_var_delete. nc. Qed.
Lemma nc_get_max : no_crash tx_get_max. Proof. apply nc_meta_select. Qed.
Lemma nc_set_max n : no_crash (tx_set_max n).
Proof. unfold tx_set_max. destruct (validate_max_history_size n); [apply nc_fail|]. apply nc_bind; [apply nc_meta_replace|]. intros _. apply nc_enforce. Qed.
Lemma nc_open : no_crash tx_open.
Proof.
  unfold tx_open. apply nc_bind; [apply nc_meta_ignore|]. intros _. apply nc_bind; [apply nc_meta_select|]. intros v. destruct (Z.ltb CURRENT_DB_VERSION v); [apply nc_fail|].
  apply nc_bind; [apply nc_meta_ignore|]. intros _. apply nc_bind; [apply nc_meta_ignore|]. intros _. apply nc_bind; [apply nc_tag_ignore|]. intros _. apply nc_bind; [apply nc_tag_ignore|]. intros _. apply nc_tag_select.
Qed.
Lemma nc_call A (t : tx A) sd q : no_crash t -> snd (sd_call t sd) <> Panic q.
Proof.
  intros H. unfold sd_call. destruct (sd_faults sd) as [|[|] fs]; cbn [snd]; try discriminate; destruct (t (sd_db sd)) as [[a d]|e|p] eqn:E; cbn [snd]; try discriminate; intros [= ->]; exact (H _ _ E).
Qed.
