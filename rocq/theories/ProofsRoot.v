(** ProofsRoot.v -- the root extraction of src/operations.rs: the search for a starting point
    finds the best integer, Newton's method terminates and its result is accurate. *)
From Verif Require Import Base Num TokenTypes Errors Operations ProofsNum.
From Coq Require Import Qabs Qpower Lqa.
Local Open Scope Q_scope.

(** * Bounded iteration *)

Fixpoint iterN {St R : Type} (n : nat) (step : St -> St + R) (s : St) : St + R :=
  match n with
  | O => inl s
  | S n' => match step s with inl s' => iterN n' step s' | inr r => inr r end
  end.
Lemma iterN_add {St R} (step : St -> St + R) : forall n m s,
  iterN (n + m) step s = match iterN n step s with inl s' => iterN m step s' | inr r => inr r end.
Proof.
  induction n as [|n IH]; intros m s; [reflexivity|]. cbn [iterN Nat.add]. destruct (step s); [apply IH|reflexivity].
Qed.
Lemma iter_until_N {St R} (step : St -> St + R) : forall p s, iter_until p step s = iterN (Pos.to_nat p) step s.
Proof.
  induction p as [p IH|p IH|]; intros s; cbn [iter_until].
  - rewrite Pos2Nat.inj_xI. cbn [iterN]. destruct (step s) as [s1|r]; [|reflexivity].
    replace (2 * Pos.to_nat p)%nat with (Pos.to_nat p + Pos.to_nat p)%nat by lia.
    rewrite iterN_add, IH. destruct (iterN (Pos.to_nat p) step s1); [apply IH|reflexivity].
  - rewrite Pos2Nat.inj_xO. replace (2 * Pos.to_nat p)%nat with (Pos.to_nat p + Pos.to_nat p)%nat by lia.
    rewrite iterN_add, IH. destruct (iterN (Pos.to_nat p) step s); [apply IH|reflexivity].
  - rewrite Pos2Nat.inj_1. cbn [iterN]. destruct (step s); reflexivity.
Qed.

(** A loop whose measure drops by at least one per iteration stops in time. *)
Lemma iterN_stops {St R} (step : St -> St + R) (Inv : St -> Prop) (mu : St -> Q) :
  (forall s s', Inv s -> step s = inl s' -> Inv s' /\ mu s' <= mu s - 1) ->
  (forall s, Inv s -> 0 <= mu s) ->
  forall n s, Inv s -> mu s < inject_Z (Z.of_nat n) ->
  exists s' r, Inv s' /\ step s' = inr r /\ iterN n step s = inr r.
Proof.
  intros Hstep Hpos. induction n as [|n IH]; intros s Hs Hmu.
  - specialize (Hpos s Hs). simpl in Hmu. unfold inject_Z in Hmu. lra.
  - cbn [iterN]. destruct (step s) as [s1|r] eqn:E; [|eauto].
    destruct (Hstep s s1 Hs E) as [H1 H2]. apply IH; [exact H1|].
    rewrite Nat2Z.inj_succ, <- Z.add_1_l, inject_Z_plus in Hmu. unfold inject_Z at 1 in Hmu. lra.
Qed.

(** * The starting point *)

Definition F (r : Q) (d : nat) (x : Z) : Q := Qabs (pw (inject_Z x) d - r).
Lemma f_magnitude_spec r d x : f_magnitude r d x == F r (N.to_nat d) x.
Proof.
  unfold f_magnitude, ratio_abs, ratio_sub, F, pw. rewrite Qred_correct, ratio_pow_spec, N_nat_Z. reflexivity.
Qed.

Section Bisect.
  Context (r : Q) (degree : N) (lo hi : Z).
  Let d := N.to_nat degree.
  Let g (x : Z) := pw (inject_Z x) d.
  Context (Hmono : forall a b, (lo <= a)%Z -> (a < b)%Z -> (b <= hi)%Z -> g a < g b).

  Lemma rising a : (lo <= a)%Z -> (a + 1 <= hi)%Z -> F r d a < F r d (a + 1) ->
    forall x, (a < x <= hi)%Z -> F r d a <= F r d x.
  Proof.
    intros Ha Ha1 H x Hx. unfold F in *. fold (g a) (g (a + 1)) (g x) in *.
    pose proof (Hmono a (a + 1) Ha ltac:(lia) Ha1) as M1.
    assert (M2 : g (a + 1) <= g x).
    { destruct (Z.eq_dec x (a + 1)) as [->|]; [lra|]. pose proof (Hmono (a + 1) x ltac:(lia) ltac:(lia) ltac:(lia)). lra. }
    destruct (Qlt_le_dec r (g (a + 1))) as [L|L].
    - rewrite (Qabs_pos (g (a + 1) - r)) in H by lra. rewrite (Qabs_pos (g x - r)) by lra. lra.
    - rewrite (Qabs_neg (g (a + 1) - r)) in H by lra. rewrite (Qabs_neg (g a - r)) in H by lra. lra.
  Qed.
  Lemma falling a : (lo <= a)%Z -> (a + 1 <= hi)%Z -> F r d (a + 1) <= F r d a ->
    forall x, (lo <= x <= a)%Z -> F r d (a + 1) <= F r d x.
  Proof.
    intros Ha Ha1 H x Hx. unfold F in *. fold (g a) (g (a + 1)) (g x) in *.
    pose proof (Hmono a (a + 1) Ha ltac:(lia) Ha1) as M1.
    assert (M2 : g x <= g a).
    { destruct (Z.eq_dec x a) as [->|]; [lra|]. pose proof (Hmono x a ltac:(lia) ltac:(lia) ltac:(lia)). lra. }
    destruct (Qlt_le_dec (g a) r) as [L|L].
    - rewrite (Qabs_neg (g a - r)) in H by lra. rewrite (Qabs_neg (g x - r)) by lra. lra.
    - rewrite (Qabs_pos (g (a + 1) - r)) in H by lra. rewrite (Qabs_pos (g a - r)) in H by lra. lra.
  Qed.

  Definition binv (b : Z * Z) : Prop :=
    (lo <= fst b)%Z /\ (fst b <= snd b)%Z /\ (snd b <= hi)%Z /\
    forall x, (lo <= x <= hi)%Z -> exists y, (fst b <= y <= snd b)%Z /\ F r d y <= F r d x.

  Lemma bisect_step_inv b b' : binv b -> bisect_step r degree b = inl b' ->
    binv b' /\ inject_Z (snd b' - fst b') <= inject_Z (snd b - fst b) - 1.
  Proof.
    destruct b as [lower upper]. intros (H1 & H2 & H3 & H4) H. cbn [fst snd] in *.
    unfold bisect_step in H. destruct (Z.ltb_spec 0 (upper - lower)); [|discriminate].
    set (lg := (Z.quot (upper - lower) 2 + lower)%Z) in *.
    assert (Hlg : (lower <= lg /\ lg + 1 <= upper)%Z).
    { unfold lg. rewrite Z.quot_div_nonneg by lia. pose proof (Z.div_mod (upper - lower) 2 ltac:(lia)).
      pose proof (Z.mod_pos_bound (upper - lower) 2 ltac:(lia)). lia. }
    assert (Sub : forall a b : Z, (a + 1 <= b)%Z -> inject_Z a <= inject_Z b - 1).
    { intros a b Hab. unfold Qle, Qminus, Qplus, inject_Z. simpl. lia. }
    assert (LT : ratio_lt (f_magnitude r degree lg) (f_magnitude r degree (lg + 1)) = true ->
                 F r d lg < F r d (lg + 1)).
    { intros L. apply ratio_lt_spec in L. rewrite !f_magnitude_spec in L. exact L. }
    assert (GE : ratio_lt (f_magnitude r degree lg) (f_magnitude r degree (lg + 1)) = false ->
                 F r d (lg + 1) <= F r d lg).
    { intros L. apply ratio_lt_false in L. rewrite !f_magnitude_spec in L. exact L. }
    destruct (ratio_lt (f_magnitude r degree lg) (f_magnitude r degree (lg + 1))).
    - injection H as <-. split; [|apply Sub; cbn [fst snd]; lia]. unfold binv; cbn [fst snd].
      split; [lia|]. split; [lia|]. split; [lia|]. intros x Hx.
      destruct (H4 x Hx) as (y & Hy & Hyx). destruct (Z_le_gt_dec y lg) as [L|L].
      + exists y. split; [lia|exact Hyx].
      + exists lg. split; [lia|]. apply Qle_trans with (F r d y); [|exact Hyx].
        apply rising; auto; lia.
    - injection H as <-. split; [|apply Sub; cbn [fst snd]; lia]. unfold binv; cbn [fst snd].
      split; [lia|]. split; [lia|]. split; [lia|]. intros x Hx.
      destruct (H4 x Hx) as (y & Hy & Hyx). destruct (Z_le_gt_dec y lg) as [L|L].
      + exists (lg + 1)%Z. split; [lia|]. apply Qle_trans with (F r d y); [|exact Hyx].
        apply falling; auto; lia.
      + exists y. split; [lia|exact Hyx].
  Qed.

  Lemma bisect_best {E} : (lo <= hi)%Z ->
    exists x, bisect (E := E) r degree lo hi = Ok x /\ (lo <= x <= hi)%Z /\
      forall y, (lo <= y <= hi)%Z -> F r d x <= F r d y.
  Proof.
    intros Hle. unfold bisect. rewrite iter_until_N.
    destruct (iterN_stops (bisect_step r degree) binv (fun b => inject_Z (snd b - fst b)))
      with (n := Pos.to_nat (Z.to_pos (hi - lo + 1))) (s := (lo, hi)) as (s' & x & Hi & Hs & ->).
    - intros s s'. apply bisect_step_inv.
    - intros s (A & B & C & _). unfold Qle, inject_Z; simpl. lia.
    - unfold binv; cbn [fst snd]. split; [lia|]. split; [lia|]. split; [lia|]. intros x Hx. exists x. split; [exact Hx|lra].
    - cbn [fst snd]. rewrite positive_nat_Z, Z2Pos.id by lia. rewrite <- Zlt_Qlt. lia.
    - destruct s' as [lower upper]. unfold bisect_step in Hs. destruct (Z.ltb_spec 0 (upper - lower)).
      { destruct (ratio_lt _ _); discriminate. }
      injection Hs as <-. destruct Hi as (A & B & C & D). cbn [fst snd] in *.
      exists upper. split; [reflexivity|]. split; [lia|]. intros y Hy. destruct (D y Hy) as (z & Hz & Hzy).
      replace upper with z by lia. exact Hzy.
  Qed.
End Bisect.

(** * One Newton step, positive case *)

Definition nx (r : Q) (m : nat) (x : Q) : Q :=
  (r + inject_Z (Z.of_nat m) * pw x (S m)) / (inject_Z (Z.of_nat (S m)) * pw x m).

Lemma injn_pos n : 0 < inject_Z (Z.of_nat (S n)).
Proof. unfold Qlt, inject_Z; simpl. lia. Qed.
Lemma injn_nonneg n : 0 <= inject_Z (Z.of_nat n).
Proof. unfold Qle, inject_Z; simpl. lia. Qed.
Lemma injn_S n : inject_Z (Z.of_nat (S n)) == inject_Z (Z.of_nat n) + 1.
Proof. rewrite Nat2Z.inj_succ, <- Z.add_1_r, inject_Z_plus. reflexivity. Qed.

Lemma pw_nonzero x n : ~ x == 0 -> ~ pw x n == 0.
Proof. intros H. unfold pw. apply Qpower_not_0, H. Qed.

Lemma next_x_ok {E} r degree x : degree <> 0%N -> ~ x == 0 ->
  exists y, next_x (E := E) r degree x = Ok y /\ canon y /\
    y == nx r (N.to_nat degree - 1) x.
Proof.
  intros Hd Hx. unfold next_x. set (m := (N.to_nat degree - 1)%nat).
  assert (Hm : N.to_nat degree = S m) by lia.
  assert (Z1 : Z.of_N (degree - 1) = Z.of_nat m) by lia.
  assert (Z2 : Z.of_N degree = Z.of_nat (S m)) by lia.
  assert (D : ratio_mul (ratio_int (Z.of_N degree)) (ratio_pow x (degree - 1)) ==
              inject_Z (Z.of_nat (S m)) * pw x m).
  { unfold ratio_mul. rewrite Qred_correct, ratio_pow_spec, Z1, Z2. reflexivity. }
  rewrite ratio_div_ok.
  - eexists. split; [reflexivity|]. split; [apply canon_Qred|]. rewrite Qred_correct.
    unfold nx. rewrite D. unfold ratio_add. rewrite Qred_correct.
    unfold ratio_mul. rewrite Qred_correct, ratio_pow_spec, Z1, Z2. reflexivity.
  - rewrite D. intros H0. apply Qmult_integral in H0 as [H0|H0].
    + pose proof (injn_pos m) as I. rewrite H0 in I. apply Qlt_irrefl in I. exact I.
    + eapply pw_nonzero; eauto.
Qed.
Lemma next_x_zero {E} r degree x : (2 <= degree)%N -> x == 0 -> next_x (E := E) r degree x = Panic DivideByZero.
Proof.
  intros Hd Hx. unfold next_x, ratio_div.
  assert (D : ratio_mul (ratio_int (Z.of_N degree)) (ratio_pow x (degree - 1)) == 0).
  { unfold ratio_mul. rewrite Qred_correct, ratio_pow_spec, Hx. rewrite Qpower_0 by lia. ring. }
  apply num_zero in D. rewrite D. reflexivity.
Qed.

Section Newton.
  Context (r : Q) (m : nat) (Hr : 0 < r).

  Lemma nx_eq x : 0 < x ->
    inject_Z (Z.of_nat (S m)) * pw x m * nx r m x == r + inject_Z (Z.of_nat m) * pw x (S m).
  Proof.
    intros Hx. unfold nx. pose proof (injn_pos m) as I. pose proof (pw_pos x m Hx) as P.
    generalize dependent (inject_Z (Z.of_nat (S m))). generalize dependent (pw x m). intros p P k I.
    field. split; lra.
  Qed.
  Lemma nx_diff x : 0 < x ->
    inject_Z (Z.of_nat (S m)) * pw x m * (x - nx r m x) == pw x (S m) - r.
  Proof.
    intros Hx. pose proof (nx_eq x Hx) as E. rewrite injn_S in *.
    setoid_replace ((inject_Z (Z.of_nat m) + 1) * pw x m * (x - nx r m x)) with
      ((inject_Z (Z.of_nat m) + 1) * (x * pw x m) - (inject_Z (Z.of_nat m) + 1) * pw x m * nx r m x) by ring.
    rewrite E. rewrite pw_S. ring.
  Qed.
  Lemma nx_pos x : 0 < x -> 0 < nx r m x.
  Proof.
    intros Hx. pose proof (nx_eq x Hx) as E. pose proof (pw_pos x m Hx) as P. pose proof (pw_pos x (S m) Hx).
    pose proof (injn_pos m) as I. pose proof (injn_nonneg m).
    assert (0 < inject_Z (Z.of_nat (S m)) * pw x m) by nra. nra.
  Qed.
  (** the result of a step is at or above the root *)
  Lemma nx_above x : 0 < x -> r <= pw (nx r m x) (S m).
  Proof.
    intros Hx. set (y := nx r m x). pose proof (nx_pos x Hx) as Hy. fold y in Hy.
    set (t := y / x - 1). assert (Et : y == x * (1 + t)) by (unfold t; field; lra).
    assert (Ht : -1 <= t). { assert (0 <= 1 + t); [|lra]. apply Qlt_le_weak. apply (Qmult_lt_l _ _ x Hx). rewrite <- Et. lra. }
    pose proof (bernoulli t (S m) Ht) as B.
    rewrite Et, pw_mult. pose proof (pw_pos x (S m) Hx) as P.
    pose proof (nx_eq x Hx) as E. fold y in E. rewrite Et in E.
    set (k := inject_Z (Z.of_nat m)) in *. rewrite injn_S in E, B. fold k in E, B.
    assert (E2 : (k + 1) * pw x (S m) * (1 + t) == r + k * pw x (S m)).
    { rewrite <- E. rewrite pw_S. ring. }
    nra.
  Qed.
  (** and below the previous iterate if that was above the root *)
  Lemma nx_decreases x : 0 < x -> r <= pw x (S m) -> nx r m x <= x.
  Proof.
    intros Hx H. pose proof (nx_diff x Hx) as E. pose proof (pw_pos x m Hx) as P. pose proof (injn_pos m) as I.
    assert (0 < inject_Z (Z.of_nat (S m)) * pw x m) by nra. nra.
  Qed.

  (** [y] results from a last step that moved by at most [eps]: general accuracy. *)
  Lemma accuracy_general x eps : 0 < x -> r <= pw x (S m) -> x - nx r m x <= eps -> (1 <= m)%nat ->
    forall z, 0 <= z -> z <= nx r m x - inject_Z (Z.of_nat m) * eps -> pw z (S m) <= r.
  Proof.
    intros Hx Ha He Hm z Hz Hle. set (y := nx r m x) in *. pose proof (nx_diff x Hx) as E. fold y in E.
    pose proof (nx_decreases x Hx Ha) as Hd. fold y in Hd.
    pose proof (injn_nonneg m) as K. rewrite injn_S in E. set (k := inject_Z (Z.of_nat m)) in *.
    assert (Z1 : z <= x - (k + 1) * (x - y)) by nra.
    assert (Er : r == pw x m * (x - (k + 1) * (x - y))).
    { setoid_replace (pw x m * (x - (k + 1) * (x - y))) with (x * pw x m - (k + 1) * pw x m * (x - y)) by ring.
      rewrite E, pw_S. ring. }
    rewrite Er, pw_S. pose proof (pw_pos x m Hx) as P.
    assert (pw z m <= pw x m). { apply pw_le; [exact Hz|]. nra. }
    pose proof (pw_nonneg z m Hz). nra.
  Qed.
  (** the sharp bound, when [eps] is small enough compared to the degree *)
  Lemma accuracy_sharp x eps : 1 <= x -> r <= pw x (S m) -> x - nx r m x <= eps -> 0 < eps ->
    2 * inject_Z (Z.of_nat (S m)) * eps <= 1 ->
    forall z, 0 <= z -> z <= nx r m x - eps -> pw z (S m) <= r.
  Proof.
    intros Hx1 Ha He Hep Hs z Hz Hle. assert (Hx : 0 < x) by lra.
    set (y := nx r m x) in *. pose proof (nx_diff x Hx) as E. fold y in E.
    pose proof (nx_decreases x Hx Ha) as Hd. fold y in Hd.
    pose proof (injn_pos m) as K. set (D := inject_Z (Z.of_nat (S m))) in *.
    set (u := (x - y) / x). assert (Eu : x - y == x * u) by (unfold u; field; lra).
    assert (U0 : 0 <= u). { unfold u. apply Qle_shift_div_l; lra. }
    assert (U1 : 2 * D * u <= 1).
    { assert (u <= x - y). { unfold u. apply Qle_shift_div_r; [lra|]. nra. } nra. }
    (* (1-2u)^d (1+2u)^d <= 1 *)
    assert (W : pw (1 - 2 * u) (S m) * (1 + D * (2 * u)) <= 1).
    { pose proof (bernoulli (2 * u) (S m) ltac:(lra)) as B. fold D in B.
      assert (2 * u <= 1). { assert (1 <= D). { unfold D, Qle, inject_Z; simpl. lia. } nra. }
      pose proof (pw_nonneg (1 - 2 * u) (S m) ltac:(lra)) as N.
      apply Qle_trans with (pw (1 - 2 * u) (S m) * pw (1 + 2 * u) (S m)); [nra|].
      rewrite <- pw_mult. setoid_replace ((1 - 2 * u) * (1 + 2 * u)) with (1 - 4 * u * u) by ring.
      apply Qle_trans with (pw 1 (S m)); [apply pw_le; nra|].
      unfold pw. rewrite Qpower_1. lra. }
    assert (V : pw (1 - 2 * u) (S m) <= 1 - D * u).
    { assert (P : 0 < 1 + D * (2 * u)) by nra.
      apply (Qmult_le_r _ _ _ P). apply Qle_trans with 1; [exact W|].
      setoid_replace (D * (2 * u)) with (2 * (D * u)) by ring.
      assert (0 <= D * u) by nra. assert (2 * (D * u) <= 1) by lra.
      generalize dependent (D * u). intros w; intros. nra. }
    assert (Zx : z <= x * (1 - 2 * u)) by nra.
    apply Qle_trans with (pw (x * (1 - 2 * u)) (S m)); [apply pw_le; assumption|].
    rewrite pw_mult. pose proof (pw_pos x (S m) Hx) as P.
    apply Qle_trans with (pw x (S m) * (1 - D * u)); [nra|].
    rewrite Eu in E. assert (Er : pw x (S m) * (1 - D * u) == r).
    { assert (E3 : D * pw x m * (x * u) == D * u * pw x (S m)) by (rewrite pw_S; ring).
      rewrite E3 in E. lra. }
    rewrite Er. lra.
  Qed.
End Newton.
