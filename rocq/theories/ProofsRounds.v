(** ProofsRounds.v -- roots take a number of rounds that is at most logarithmic. *)
From Verif Require Import Base Position Num TokenTypes Errors Operations SavedData Variables SyntaxTree SpecEval SpecRounds.
From Verif Require Import ProofsNum ProofsRoot ProofsRoot2 ProofsPower ProofsEval ProofsEval2.
From Coq Require Import Qabs Qpower Qround Lqa Lia.
Local Open Scope Q_scope.

(** * The search *)
Lemma off_F t d x : off t d x == F t (Pos.to_nat d) x.
Proof. unfold off, F. rewrite pw_Zpos. reflexivity. Qed.
Lemma searched_eq t t' d lo hi n x : t == t' -> searched t d lo hi n x -> searched t' d lo hi n x.
Proof.
  intros E H. induction H as [lo hi H|lo hi mid n x L M O H IH|lo hi mid n x L M O H IH].
  - constructor. exact H.
  - eapply sd_lower; eauto. unfold off in *. rewrite <- E. exact O.
  - eapply sd_upper; eauto. unfold off in *. rewrite <- E. exact O.
Qed.
Lemma search_rounds t d : forall b lo hi, (lo <= hi)%Z -> (hi - lo < 2 ^ Z.of_nat b)%Z ->
  exists n x, (n <= b)%nat /\ searched t d lo hi n x /\ iterN (S b) (bisect_step t (Npos d)) (lo, hi) = inr x.
Proof.
  induction b as [|b IH]; intros lo hi Hle Hb.
  - exists 0%nat, hi. change (2 ^ Z.of_nat 0)%Z with 1%Z in Hb. split; [lia|]. split; [constructor; lia|].
    cbn [iterN bisect_step]. destruct (Z.ltb_spec 0 (hi - lo)); [lia|reflexivity].
  - cbn [iterN]. unfold bisect_step at 1. destruct (Z.ltb_spec 0 (hi - lo)) as [L|L].
    2: { exists 0%nat, hi. split; [lia|]. split; [constructor; lia|reflexivity]. }
    rewrite Nat2Z.inj_succ, Z.pow_succ_r in Hb by lia. rewrite Z.quot_div_nonneg by lia.
    assert (D : (0 <= (hi - lo) / 2)%Z /\ (2 * ((hi - lo) / 2) <= hi - lo < 2 * ((hi - lo) / 2) + 2)%Z).
    { pose proof (Z.div_mod (hi - lo) 2 ltac:(lia)). pose proof (Z.mod_pos_bound (hi - lo) 2 ltac:(lia)). lia. }
    set (h := ((hi - lo) / 2)%Z) in *. replace (h + lo)%Z with (lo + h)%Z by lia.
    destruct (ratio_lt (f_magnitude t (N.pos d) (lo + h)) (f_magnitude t (N.pos d) (lo + h + 1))) eqn:R.
    + apply ratio_lt_spec in R. rewrite !f_magnitude_spec in R. cbn [N.to_nat] in R. rewrite <- !off_F in R.
      destruct (IH lo (lo + h)%Z) as (n & x & Hn & Se & I); [lia|lia|]. exists (S n), x. split; [lia|]. split; [|exact I].
      eapply sd_lower; [lia|reflexivity|exact R|exact Se].
    + apply ratio_lt_false in R. rewrite !f_magnitude_spec in R. cbn [N.to_nat] in R. rewrite <- !off_F in R.
      destruct (IH (lo + h + 1)%Z hi) as (n & x & Hn & Se & I); [lia|lia|]. exists (S n), x. split; [lia|]. split; [|exact I].
      eapply sd_upper; [lia|reflexivity|exact R|exact Se].
Qed.

(** * The refinement *)
Lemma formula_nx t d x : newton_formula t d x == nx t (Pos.to_nat d - 1) x.
Proof.
  unfold newton_formula, nx, pw. set (m := (Pos.to_nat d - 1)%nat). assert (E : Pos.to_nat d = S m) by (unfold m; lia).
  replace (Z.of_nat (S m)) with (Zpos d) by lia. replace (Z.of_nat m) with (Zpos d - 1)%Z by lia. reflexivity.
Qed.
Lemma nx_eq_compat t t' m x x' : t == t' -> x == x' -> nx t m x == nx t' m x'.
Proof. intros E1 E2. unfold nx. rewrite E1, E2. reflexivity. Qed.
Lemma refined_eq t t' d eps x n y : t == t' -> refined t d eps x n y -> forall x', x == x' -> refined t' d eps x' n y.
Proof.
  intros E H. induction H as [x y N F M|x x1 n y N F M H IH]; intros x' Ex.
  - apply rf_last; [rewrite <- Ex; exact N|rewrite F, !formula_nx; apply nx_eq_compat; assumption|rewrite <- Ex; exact M].
  - apply (rf_more _ _ _ x' x1); [rewrite <- Ex; exact N|rewrite F, !formula_nx; apply nx_eq_compat; assumption|rewrite <- Ex; exact M|].
    apply IH. reflexivity.
Qed.
Lemma refined_opp t d eps x n y : Z.odd (Zpos d) = true -> refined t d eps x n y -> refined (- t) d eps (- x) n (- y).
Proof.
  intros Od H. assert (Ev : Nat.even (Pos.to_nat d - 1) = true).
  { rewrite <- odd_Npos in Od. apply odd_to_nat in Od. cbn [N.to_nat] in Od. destruct (Pos.to_nat d) as [|k]; [discriminate|]. rewrite Nat.odd_succ in Od.
    replace (S k - 1)%nat with k by lia. exact Od. }
  induction H as [x y N F M|x x1 n y N F M H IH].
  - apply rf_last; [lra|rewrite F, !formula_nx, nx_opp by exact Ev; reflexivity|]. rewrite <- (Qabs_opp (y - x)) in M.
    eapply Qle_trans; [|exact M]. apply Qle_lteq. right. apply Qabs_wd. ring.
  - apply (rf_more _ _ _ (- x) (- x1)); [lra|rewrite F, !formula_nx, nx_opp by exact Ev; reflexivity| |exact IH].
    rewrite <- (Qabs_opp (x1 - x)) in M. eapply Qlt_le_trans; [exact M|]. apply Qle_lteq. right. apply Qabs_wd. ring.
Qed.

(** the steps shrink *)
Lemma nx_shrinks r m x : 0 < r -> 0 < x -> r <= pw x (S m) ->
  inject_Z (Z.of_nat (S m)) * (nx r m x - nx r m (nx r m x)) <= inject_Z (Z.of_nat m) * (x - nx r m x).
Proof.
  intros Hr Hx Ha. set (y := nx r m x). pose proof (nx_pos r m Hr x Hx) as Py. fold y in Py.
  pose proof (nx_decreases r m x Hx Ha) as Dy. fold y in Dy.
  pose proof (nx_diff r m x Hx) as Ex. fold y in Ex. pose proof (nx_diff r m y Py) as Ey. set (z := nx r m y) in *.
  pose proof (pw_pos x m Hx) as Px. pose proof (pw_pos y m Py) as Pm. rewrite pw_S in Ex, Ey.
  assert (L : pw y m <= pw x m) by (apply pw_le; lra).
  rewrite injn_S in *. pose proof (injn_nonneg m) as K. set (k := inject_Z (Z.of_nat m)) in *. set (X := pw x m) in *. set (Y := pw y m) in *.
  apply (Qmult_le_l _ _ Y Pm).
  setoid_replace (Y * ((k + 1) * (y - z))) with ((k + 1) * Y * (y - z)) by ring. rewrite Ey.
  assert (Er : r == X * (x - (k + 1) * (x - y))). { setoid_replace (X * (x - (k + 1) * (x - y))) with (x * X - (k + 1) * X * (x - y)) by ring. rewrite Ex. ring. }
  assert (P : 0 <= x - (k + 1) * (x - y)).
  { apply (Qmult_le_l _ _ X Px). rewrite <- Er. lra. }
  assert (Y * (x - (k + 1) * (x - y)) <= r) by (rewrite Er; apply Qmult_le_compat_r; assumption).
  lra.
Qed.

Section Rounds.
  Context {E : Type} (r : Q) (d : positive) (eps : Q).
  Context (Hr : 0 < r) (Hd : (2 <= Npos d)%N) (Heps : Qnum eps = 1%Z).
  Let m := (Pos.to_nat d - 1)%nat.
  Lemma d_m : Pos.to_nat d = S m.
  Proof. unfold m. lia. Qed.

  Lemma refine_rounds : forall n x, 0 < x -> r <= pw x (S m) ->
    (x - nx r m x) * pw (inject_Z (Z.of_nat m)) n <= eps * pw (inject_Z (Z.of_nat (S m))) n ->
    exists j y, (j <= S n)%nat /\ iterN (S n) (newton_step (E := E) r (Npos d) eps) x = inr (Ok y) /\ refined r d eps x j y.
  Proof.
    induction n as [|n IH]; intros x Hx Ha Hs.
    - destruct (newton_step_cases (E := E) r (Npos d) eps Hr Hd x x Hx (or_introl Ha)) as [(x' & Hst & _ & L & Ex)|(y & Hst & _)].
      + exfalso. cbn [N.to_nat] in *. fold m in Ex. rewrite !pw_0 in Hs. pose proof (nx_decreases r m x Hx Ha) as D. rewrite <- Ex in D, Hs.
        rewrite Qabs_neg in L by lra. lra.
      + exists 1%nat, y. split; [lia|]. cbn [iterN]. rewrite Hst. split; [reflexivity|].
        unfold newton_step in Hst. destruct (next_x_ok (E := E) r (Npos d) x) as (y' & Ey & _ & Hy); [lia|lra|]. rewrite Ey in Hst.
        destruct (ratio_le (ratio_abs (ratio_sub y' x)) eps) eqn:R; [|discriminate]. injection Hst as <-. apply ratio_le_spec in R.
        apply rf_last; [lra|rewrite formula_nx; exact Hy|]. unfold ratio_abs, ratio_sub in R. rewrite Qred_correct in R. exact R.
    - cbn [iterN]. unfold newton_step at 1. destruct (next_x_ok (E := E) r (Npos d) x) as (y' & Ey & _ & Hy); [lia|lra|]. rewrite Ey. cbn [N.to_nat] in Hy. fold m in Hy.
      destruct (ratio_le (ratio_abs (ratio_sub y' x)) eps) eqn:R.
      + apply ratio_le_spec in R. exists 1%nat, y'. split; [lia|]. split; [reflexivity|]. apply rf_last; [lra|rewrite formula_nx; exact Hy|].
        unfold ratio_abs, ratio_sub in R. rewrite Qred_correct in R. exact R.
      + apply ratio_le_false in R. unfold ratio_abs, ratio_sub in R. rewrite Qred_correct in R.
        pose proof (nx_pos r m Hr x Hx) as Py. pose proof (nx_above r m Hr x Hx) as Ay. pose proof (nx_shrinks r m x Hr Hx Ha) as Sh.
        destruct (IH y') as (j & y & Hj & I & Rf).
        * rewrite Hy. exact Py.
        * rewrite Hy. exact Ay.
        * rewrite (nx_eq_compat r r m y' (nx r m x) (Qeq_refl r) Hy), Hy. rewrite !pw_S in Hs.
          pose proof (injn_pos m) as K. pose proof (pw_nonneg (inject_Z (Z.of_nat m)) n (injn_nonneg m)) as Pn.
          apply (Qmult_le_l _ _ _ K). set (dx := x - nx r m x) in *. set (dy := nx r m x - nx r m (nx r m x)) in *. set (A := pw (inject_Z (Z.of_nat m)) n) in *. set (B := pw (inject_Z (Z.of_nat (S m))) n) in *.
          set (k := inject_Z (Z.of_nat m)) in *. set (k1 := inject_Z (Z.of_nat (Datatypes.S m))) in *.
          apply Qle_trans with (k * dx * A); [|lra].
          setoid_replace (k1 * (dy * A)) with ((k1 * dy) * A) by ring. apply Qmult_le_compat_r; assumption.
        * exists (S j), y. split; [lia|]. split; [exact I|]. apply (rf_more _ _ _ x y'); [lra|rewrite formula_nx; exact Hy|exact R|exact Rf].
  Qed.

  (** [d] rounds halve the steps *)
  Lemma halves : 2 * pw (inject_Z (Z.of_nat m)) (S m) <= pw (inject_Z (Z.of_nat (S m))) (S m).
  Proof.
    set (k := inject_Z (Z.of_nat m)). assert (K1 : 1 <= k). { unfold k. apply (inject_le 1). unfold m. lia. }
    pose proof (bernoulli (1 / k) (S m)) as B. rewrite injn_S in *. fold k in B |- *.
    assert (G : 0 <= 1 / k) by (apply Qle_shift_div_l; lra). specialize (B ltac:(lra)).
    assert (E1 : (k + 1) * (1 / k) == 1 + 1 / k) by (field; lra). rewrite E1 in B.
    assert (E2 : k + 1 == k * (1 + 1 / k)) by (field; lra). rewrite E2, pw_mult.
    pose proof (pw_pos k (S m) ltac:(lra)) as P. nra.
  Qed.
  Lemma halves_many : forall M, pw 2 M * pw (inject_Z (Z.of_nat m)) (M * S m) <= pw (inject_Z (Z.of_nat (S m))) (M * S m).
  Proof.
    assert (A : forall x a b, pw x (a + b) == pw x a * pw x b).
    { intros x a b. induction a as [|a IH]; [rewrite pw_0; cbn [Nat.add]; lra|]. cbn [Nat.add]. rewrite !pw_S, IH. ring. }
    induction M as [|M IH]; [cbn [Nat.mul]; rewrite (pw_0 2), !(pw_0 (inject_Z _)); apply Qle_refl|]. cbn [Nat.mul]. rewrite pw_S, (A _ (S m)), (A _ (S m)). pose proof halves as H.
    set (u := pw (inject_Z (Z.of_nat m)) (S m)) in *. set (v := pw (inject_Z (Z.of_nat (S m))) (S m)) in *.
    set (U := pw (inject_Z (Z.of_nat m)) (M * S m)) in *. set (V := pw (inject_Z (Z.of_nat (S m))) (M * S m)) in *.
    assert (0 <= U) by (apply pw_nonneg, injn_nonneg). assert (0 <= u) by (apply pw_nonneg, injn_nonneg). assert (0 <= pw 2 M) by (apply pw_nonneg; lra).
    setoid_replace (2 * pw 2 M * (u * U)) with ((2 * u) * (pw 2 M * U)) by ring.
    apply Qle_trans with (v * (pw 2 M * U)); [apply Qmult_le_compat_r; [exact H|nra]|].
    setoid_replace (v * V) with (V * v) by ring. setoid_replace (v * (pw 2 M * U)) with (pw 2 M * U * v) by ring. apply Qmult_le_compat_r; [exact IH|lra].
  Qed.
  (** from a whole number up to [r] *)
  Lemma first_step (x : Z) : (1 <= x)%Z -> inject_Z x <= r -> nx r m (inject_Z x) <= r.
  Proof.
    intros H1 Hxr. set (q := inject_Z x) in *. assert (Q1 : 1 <= q) by (apply (inject_le 1); exact H1).
    pose proof (nx_eq r m q ltac:(lra)) as E0. pose proof (pw_pos q m ltac:(lra)) as P. rewrite pw_S in E0. pose proof (injn_nonneg m) as K. rewrite injn_S in E0.
    set (k := inject_Z (Z.of_nat m)) in *. set (N := nx r m q) in *.
    assert (P1 : 1 <= pw q m). { apply Qle_trans with (pw 1 m); [unfold pw; rewrite Qpower_1; lra|]. apply pw_le; lra. }
    set (W := pw q m) in *. assert (PK : 0 < (k + 1) * W) by nra. apply (Qmult_le_l _ _ _ PK). rewrite E0.
    assert (r <= r * W) by nra. assert (k * (q * W) <= k * (r * W)).
    { setoid_replace (k * (q * W)) with (q * (k * W)) by ring. setoid_replace (k * (r * W)) with (r * (k * W)) by ring. apply Qmult_le_compat_r; [exact Hxr|nra]. }
    lra.
  Qed.
  Lemma refine_from (x : Z) b e : (1 <= x)%Z -> inject_Z x <= r -> r <= pw 2 b -> 1 <= eps * pw 2 e ->
    exists j y, (j <= 2 + Pos.to_nat d * (b + e))%nat /\ newton (E := E) r (Npos d) eps (inject_Z x) = Ok y /\ refined r d eps (inject_Z x) j y.
  Proof.
    intros H1 Hxr Hb He. assert (Hx : 0 < inject_Z x) by (apply (inject_lt 0); lia).
    assert (Main : exists n j y, (j <= 2 + Pos.to_nat d * (b + e))%nat /\ iterN n (newton_step (E := E) r (Npos d) eps) (inject_Z x) = inr (Ok y) /\ refined r d eps (inject_Z x) j y).
    { destruct (next_x_ok (E := E) r (Npos d) (inject_Z x)) as (x1 & Ex & _ & Hx1); [lia|lra|]. cbn [N.to_nat] in Hx1. fold m in Hx1.
      destruct (ratio_le (ratio_abs (ratio_sub x1 (inject_Z x))) eps) eqn:R.
      - exists 1%nat, 1%nat, x1. split; [lia|]. cbn [iterN]. unfold newton_step. rewrite Ex, R. split; [reflexivity|]. apply ratio_le_spec in R.
        apply rf_last; [lra|rewrite formula_nx; exact Hx1|]. unfold ratio_abs, ratio_sub in R. rewrite Qred_correct in R. exact R.
      - set (M := (b + e)%nat). destruct (refine_rounds (M * S m) x1) as (j & y & Hj & I & Rf).
        + rewrite Hx1. apply nx_pos; assumption.
        + rewrite Hx1. apply nx_above; assumption.
        + pose proof (first_step x H1 Hxr) as F. rewrite <- Hx1 in F. 
          assert (P1 : 0 < x1) by (rewrite Hx1; apply nx_pos; assumption). pose proof (nx_pos r m Hr x1 P1) as P2.
          pose proof (halves_many M) as HM. set (A := pw (inject_Z (Z.of_nat m)) (M * S m)) in *. set (B := pw (inject_Z (Z.of_nat (S m))) (M * S m)) in *.
          assert (0 <= A) by (apply pw_nonneg, injn_nonneg). assert (EP : 0 < eps) by (clear -Heps; destruct eps as [n q]; simpl in *; subst n; reflexivity).
          assert (EM : pw 2 M == pw 2 b * pw 2 e).
          { unfold M, pw. rewrite Nat2Z.inj_add, Qpower_plus by discriminate. reflexivity. }
          apply Qle_trans with (pw 2 b * A); [apply Qmult_le_compat_r; [lra|assumption]|].
          apply Qle_trans with (eps * (pw 2 M * A)); [|setoid_replace (eps * B) with (B * eps) by ring; setoid_replace (eps * (pw 2 M * A)) with (pw 2 M * A * eps) by ring; apply Qmult_le_compat_r; lra].
          rewrite EM. setoid_replace (eps * (pw 2 b * pw 2 e * A)) with ((eps * pw 2 e) * (pw 2 b * A)) by ring.
          pose proof (pw_nonneg 2 b ltac:(lra)) as Pb. assert (0 <= pw 2 b * A) by nra. set (W := pw 2 b * A) in *. set (V := eps * pw 2 e) in *. nra.
        + exists (S (S (M * S m))), (S j), y. split; [rewrite d_m; fold M; lia|]. cbn [iterN] in I |- *. unfold newton_step at 1. rewrite Ex, R. split; [exact I|].
          apply ratio_le_false in R. unfold ratio_abs, ratio_sub in R. rewrite Qred_correct in R.
          apply (rf_more _ _ _ _ x1); [lra|rewrite formula_nx; exact Hx1|exact R|exact Rf]. }
    destruct Main as (n & j & y & Hj & I & Rf). exists j, y. split; [exact Hj|]. split; [|exact Rf].
    destruct (newton_pos (E := E) r (Npos d) eps Hr Hd Heps (inject_Z x) Hx) as (y' & Hy' & _). rewrite Hy'. f_equal.
    unfold newton in Hy'. rewrite iter_until_N in Hy'. set (k := Pos.to_nat _) in Hy'.
    destruct (iterN k (newton_step r (N.pos d) eps) (inject_Z x)) as [s|o] eqn:Ik; [discriminate|]. subst o.
    pose proof (iterN_add (newton_step (E := E) r (Npos d) eps) n k (inject_Z x)) as A1. pose proof (iterN_add (newton_step (E := E) r (Npos d) eps) k n (inject_Z x)) as A2.
    rewrite I in A1. rewrite Ik in A2. rewrite Nat.add_comm in A2. congruence.
  Qed.
End Rounds.

(** * The whole *)
Lemma to_integer_floor t : 0 <= t -> ratio_to_integer t = Qfloor t.
Proof. intros H. destruct t as [a b]. unfold Qle in H. simpl in H. unfold ratio_to_integer. simpl. apply Z.quot_div_nonneg; lia. Qed.
Lemma interval_between t lo hi : search_interval t = (lo, hi) -> between_zero_and t lo hi.
Proof.
  unfold search_interval. destruct (ratio_is_negative t) eqn:N; intros H; apply pair_equal_spec in H as [<- <-].
  - apply num_negative in N. replace (ratio_to_integer t) with (- Qfloor (- t))%Z; [constructor; exact N|].
    rewrite <- to_integer_floor by lra. rewrite to_integer_opp. lia.
  - apply num_nonneg in N. rewrite to_integer_floor by exact N. constructor; exact N.
Qed.
Lemma between_eq t t' lo hi : t == t' -> between_zero_and t lo hi -> between_zero_and t' lo hi.
Proof.
  intros E H. destruct H as [H|H].
  - rewrite (Qfloor_comp _ _ E). constructor. rewrite <- E. exact H.
  - rewrite (Qfloor_comp (- t) (- t')) by (rewrite E; reflexivity). constructor. rewrite <- E. exact H.
Qed.
Lemma between_span t lo hi b : between_zero_and t lo hi -> Qabs t <= pw 2 b -> (lo <= hi)%Z /\ (hi - lo < 2 ^ Z.of_nat (S b))%Z.
Proof.
  intros H B. assert (P : pw 2 b == inject_Z (2 ^ Z.of_nat b)) by (unfold pw; rewrite Zpower_Qpower by lia; reflexivity).
  assert (G : forall q, 0 <= q -> q <= pw 2 b -> (0 <= Qfloor q <= 2 ^ Z.of_nat b)%Z).
  { intros q Q0 Q1. rewrite P in Q1. split.
    - change 0%Z with (Qfloor 0). apply Qfloor_resp_le. exact Q0.
    - rewrite <- (Qfloor_Z (2 ^ Z.of_nat b)). apply Qfloor_resp_le. exact Q1. }
  assert (L : (2 ^ Z.of_nat b < 2 ^ Z.of_nat (S b))%Z) by (apply Z.pow_lt_mono_r; lia).
  destruct H as [H|H].
  - rewrite Qabs_pos in B by exact H. specialize (G t H B). lia.
  - rewrite Qabs_neg in B by lra. specialize (G (- t) ltac:(lra) B). lia.
Qed.

Lemma root_part_rounds {E} t (d : positive) eps b e v :
  (2 <= Npos d)%N -> 0 <= t \/ N.odd (Npos d) = true -> Qnum eps = 1%Z ->
  Qabs t <= pw 2 b -> 1 <= eps * pw 2 e ->
  root_part (E := E) t (Npos d) eps = Ok v ->
  exists lo hi x0 i, between_zero_and t lo hi /\ searched t d lo hi i x0 /\ (i <= b + 1)%nat /\
    ((inject_Z x0 ^ Zpos d == t /\ v == inject_Z x0) \/
     (~ inject_Z x0 ^ Zpos d == t /\ exists j, refined t d eps (inject_Z x0) j v /\ (j <= 2 + Pos.to_nat d * (b + e))%nat)).
Proof.
  intros Hd Hor Heps Hb He Hv.
  pose proof (search_best (E := E) t (Npos d) Hd Hor) as SB.
  unfold root_part in Hv. fold (search_interval t) in Hv. destruct (search_interval t) as [lo hi] eqn:Hi.
  destruct SB as (x & Hx & Hin & Hbest). rewrite Hx in Hv. cbn [bind] in Hv.
  pose proof (interval_between t lo hi Hi) as Bt. destruct (between_span t lo hi b Bt Hb) as [Le Sp].
  destruct (search_rounds t d (S b) lo hi Le Sp) as (i & x' & Hi1 & Se & It).
  assert (x' = x).
  { unfold bisect in Hx. rewrite iter_until_N in Hx. set (k := Pos.to_nat _) in Hx.
    destruct (iterN k (bisect_step t (Npos d)) (lo, hi)) as [s|o] eqn:Ik; [discriminate|]. injection Hx as <-.
    pose proof (iterN_add (bisect_step t (Npos d)) (S (S b)) k (lo, hi)) as A1. pose proof (iterN_add (bisect_step t (Npos d)) k (S (S b)) (lo, hi)) as A2.
    rewrite It in A1. rewrite Ik in A2. rewrite Nat.add_comm in A2. congruence. }
  subst x'. exists lo, hi, x, i. split; [exact Bt|]. split; [exact Se|]. split; [lia|].
  destruct (ratio_is_zero (f_magnitude t (Npos d) x)) eqn:Z0.
  { left. apply magnitude_zero in Z0. cbn [N.to_nat] in Z0. rewrite pw_Zpos in Z0. split; [exact Z0|]. injection Hv as <-. reflexivity. }
  right. assert (NZ : ~ inject_Z x ^ Zpos d == t).
  { intros Ht. assert (ratio_is_zero (f_magnitude t (Npos d) x) = true); [|congruence]. apply magnitude_zero. cbn [N.to_nat]. rewrite pw_Zpos. exact Ht. }
  split; [exact NZ|].
  assert (X0 : x <> 0%Z).
  { intros ->. unfold newton in Hv. assert (Panic (E := E) (A := Q) DivideByZero = Ok v); [|discriminate]. rewrite <- Hv. symmetry. apply newton_zero; [exact Hd|reflexivity]. }
  assert (FX : forall y, (lo <= y <= hi)%Z -> F t (Pos.to_nat d) x <= F t (Pos.to_nat d) y) by exact Hbest.
  unfold search_interval in Hi. destruct (ratio_is_negative t) eqn:Hn; apply pair_equal_spec in Hi as [<- <-].
  - apply num_negative in Hn. assert (Ho : N.odd (Npos d) = true) by (destruct Hor; [lra|assumption]).
    destruct (refine_from (E := E) (- t) d eps ltac:(lra) Hd Heps (- x) b e) as (j & y & Hj & Hy & Rf).
    + lia.
    + rewrite inject_Z_opp. pose proof (to_integer_nonneg (- t) ltac:(lra)) as (_ & A & _). rewrite to_integer_opp in A.
      assert (inject_Z (- x) <= inject_Z (- ratio_to_integer t)) by (apply inject_le; lia). rewrite inject_Z_opp in H. lra.
    + rewrite Qabs_neg in Hb by lra. exact Hb.
    + exact He.
    + assert (O : newton (E := E) (- (- t)) (Npos d) eps (- inject_Z (- x)) = omap_opp (newton (- t) (Npos d) eps (inject_Z (- x)))) by (apply newton_opp; assumption).
      rewrite Hy in O. cbn [omap_opp] in O.
      assert (E1 : - - t = t) by (destruct t as [a q]; unfold Qopp; simpl; rewrite Z.opp_involutive; reflexivity).
      assert (E2 : - inject_Z (- x) = ratio_int x) by (unfold ratio_int, inject_Z, Qopp; simpl; rewrite Z.opp_involutive; reflexivity).
      rewrite E1, E2 in O. rewrite O in Hv. injection Hv as <-. exists j. split; [|exact Hj].
      apply refined_opp in Rf; [|rewrite <- odd_Npos; exact Ho]. rewrite E1, E2 in Rf. exact Rf.
  - apply num_nonneg in Hn. assert (T0 : 0 < t).
    { destruct (Qlt_le_dec 0 t) as [L|L]; [exact L|exfalso]. pose proof (to_integer_nonneg t Hn) as (_ & A & _).
      assert (inject_Z x <= inject_Z (ratio_to_integer t)) by (apply inject_le; lia). assert (inject_Z 1 <= inject_Z x) by (apply inject_le; lia). change (inject_Z 1) with 1 in H0. lra. }
    destruct (refine_from (E := E) t d eps T0 Hd Heps x b e) as (j & y & Hj & Hy & Rf).
    + lia.
    + pose proof (to_integer_nonneg t Hn) as (_ & A & _). assert (inject_Z x <= inject_Z (ratio_to_integer t)) by (apply inject_le; lia). lra.
    + rewrite Qabs_pos in Hb by lra. exact Hb.
    + exact He.
    + change (ratio_int x) with (inject_Z x) in Hv. rewrite Hy in Hv. injection Hv as <-. exists j. auto.
Qed.

Lemma tolerance_bits radix c k : (radix <= 2 ^ c)%N -> (1 <= radix)%N -> 1 <= tolerance radix k * pw 2 (N.to_nat (c * k)).
Proof.
  intros H Hr. unfold tolerance, pw. rewrite N_nat_Z.
  assert (P : (0 < Z.of_N radix ^ Z.of_N k)%Z) by (apply Z.pow_pos_nonneg; lia).
  assert (L : (Z.of_N radix ^ Z.of_N k <= 2 ^ Z.of_N (c * k))%Z).
  { rewrite N2Z.inj_mul, Z.pow_mul_r by lia. apply Z.pow_le_mono_l. split; [lia|]. change 2%Z with (Z.of_N 2). rewrite <- N2Z.inj_pow. lia. }
  change 2 with (inject_Z 2). rewrite <- Zpower_Qpower by lia. set (W := (2 ^ Z.of_N (c * k))%Z) in *. destruct (Z.of_N radix ^ Z.of_N k)%Z as [|q|q]; try lia. unfold Qle, Qmult, inject_Z. cbn [Qnum Qden Z.to_pos]. rewrite Pos.mul_1_r. lia.
Qed.

Lemma exec_power_rounds pr a p x y n d v b c k :
  settings_ok a -> canon x -> canon y -> fraction y n d ->
  digits_kept pr a = Some k -> Qabs (x ^ n) <= pw 2 b -> (a_radix a <= 2 ^ c)%N ->
  exec_power pr a p x y = Ok v ->
  exists lo hi x0 i, between_zero_and (x ^ n) lo hi /\ searched (x ^ n) d lo hi i x0 /\ (i <= b + 1)%nat /\
    ((inject_Z x0 ^ Zpos d == x ^ n /\ v == inject_Z x0) \/
     (~ inject_Z x0 ^ Zpos d == x ^ n /\ exists j, refined (x ^ n) d (tolerance (a_radix a) k) (inject_Z x0) j v /\
        (j <= 2 + Pos.to_nat d * (b + N.to_nat (c * k)))%nat)).
Proof.
  intros (Hp & He & Hr) Cx Cy Hf Hk Hb Hc Hv. destruct (fraction_canon y n d Cy Hf) as [-> ->].
  pose proof (u8_twice pr _ _ Hp He) as U. unfold digits_kept in Hk. unfold exec_power in Hv. rewrite Hk in U. destruct U as (t0 & U1 & U2).
  rewrite U1 in Hv. cbn [bind] in Hv. unfold map_err in Hv.
  destruct (exponentiate pr x y t0 (a_radix a)) as [v'|er|q] eqn:Ex; try discriminate. apply ok_inj in Hv. subst v'.
  assert (Hex : power_exists x (Qnum y)).
  { destruct (Z_lt_le_dec (Qnum y) 0) as [L|L]; [|left; lia]. right. intros Z.
    unfold exponentiate in Ex. assert (N : ratio_is_negative y = true) by (apply num_negative; destruct y; unfold Qlt; simpl in *; lia).
    rewrite N in Ex. unfold ratio_inv in Ex. apply num_zero in Z. rewrite Z in Ex. discriminate. }
  destruct (radicand_ok (E := math_error) x y Cx Hex) as (bb & Eb & Ct & Et).
  pose proof (exponentiate_eq pr x y t0 (a_radix a) k bb _ Eb (U2 _) (tolerance_eps _ _ Hr)) as Q. rewrite Ex in Q. cbn zeta in Q.
  set (t := ratio_pow bb (Z.abs_N (Qnum y))) in *. symmetry in Q.
  destruct Hf as (_ & _ & D1). destruct (N.eqb_spec (Npos (Qden y)) 1) as [D|D]; [lia|].
  destruct (ratio_is_negative t && N.even (Npos (Qden y))) eqn:Him; [discriminate|].
  assert (Hor : 0 <= t \/ N.odd (Npos (Qden y)) = true).
  { apply andb_false_iff in Him as [Hn|Hn]; [left; apply num_nonneg; exact Hn|right].
    rewrite <- N.negb_odd in Hn. destruct (N.odd (Npos (Qden y))); [reflexivity|discriminate]. }
  destruct (root_part_rounds (E := math_error) t (Qden y) (tolerance (a_radix a) k) b (N.to_nat (c * k)) v) as (lo & hi & x0 & i & B & Se & Hi & R).
  - lia.
  - exact Hor.
  - reflexivity.
  - rewrite Et. exact Hb.
  - apply tolerance_bits; assumption.
  - exact Q.
  - exists lo, hi, x0, i. split; [exact (between_eq _ _ _ _ Et B)|]. split; [exact (searched_eq _ _ _ _ _ _ _ Et Se)|]. split; [exact Hi|].
    rewrite <- Et. destruct R as [R|(NZ & j & Rf & Hj)]; [left; exact R|right]. split; [exact NZ|]. exists j. split; [|exact Hj].
    exact (refined_eq _ _ _ _ _ _ _ Et Rf _ (Qeq_refl _)).
Qed.

(** * The rounds are determined *)
Lemma searched_unique t d lo hi n x : searched t d lo hi n x -> forall n' x', searched t d lo hi n' x' -> n = n' /\ x = x'.
Proof.
  induction 1 as [lo hi H|lo hi mid n x L M O H IH|lo hi mid n x L M O H IH]; intros n' x' H'; inversion H'; subst; try lia; auto; try (exfalso; lra).
  - match goal with G : searched t d _ _ _ x' |- _ => destruct (IH _ _ G) as [-> ->]; auto end.
  - match goal with G : searched t d _ _ _ x' |- _ => destruct (IH _ _ G) as [-> ->]; auto end.
Qed.
Lemma refined_unique t d eps x n y : refined t d eps x n y -> forall x1 n' y', x == x1 -> refined t d eps x1 n' y' -> n = n' /\ y == y'.
Proof.
  assert (C : forall x x1, x == x1 -> newton_formula t d x == newton_formula t d x1) by (intros a b E; rewrite !formula_nx; apply nx_eq_compat; [reflexivity|exact E]).
  induction 1 as [x y N F M|x x2 n y N F M H IH]; intros x1 n' y' Ex H'; inversion H' as [? ? N' F' M'|? x2' ? ? N' F' M' H2']; subst.
  - split; [reflexivity|]. rewrite F, F'. apply C, Ex.
  - exfalso. assert (y == x2') by (rewrite F, F'; apply C, Ex). rewrite H, Ex in M. lra.
  - exfalso. assert (x2 == y') by (rewrite F, F'; apply C, Ex). rewrite H0, Ex in M. lra.
  - assert (x2 == x2') by (rewrite F, F'; apply C, Ex). destruct (IH _ _ _ H0 H2') as [-> ?]. auto.
Qed.
