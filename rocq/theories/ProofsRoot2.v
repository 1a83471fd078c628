(** ProofsRoot2.v -- the Newton loop and [exponentiate] as a whole. *)
From Verif Require Import Base Position Num TokenTypes Errors Operations SavedData Variables SyntaxTree.
From Verif Require Import SpecEval ProofsNum ProofsRoot.
From Coq Require Import Qabs Qpower Lqa.
Local Open Scope Q_scope.

Section Loop.
  Context {E : Type} (r : Q) (degree : N) (eps : Q).
  Context (Hr : 0 < r) (Hd : (2 <= degree)%N) (Heps : Qnum eps = 1%Z).
  Let m := (N.to_nat degree - 1)%nat.
  Lemma m_S : N.to_nat degree = S m.
  Proof. unfold m. lia. Qed.
  Lemma eps_R : eps * inject_Z (Zpos (Qden eps)) == 1.
  Proof. destruct eps as [n d]. simpl in *. subst n. unfold Qeq, Qmult, inject_Z; simpl. lia. Qed.
  Lemma eps_pos : 0 < eps.
  Proof. destruct eps as [n d]. simpl in *. subst n. unfold Qlt; simpl. lia. Qed.

  Definition ninv (x : Q) : Prop := 0 < x /\ r <= pw x (S m).
  (** [y] is the result of a last step from [x] *)
  Definition last_step (x0 y : Q) : Prop :=
    canon y /\ ninv y /\
    exists x, 0 < x /\ y == nx r m x /\ Qabs (y - x) <= eps /\ (r <= pw x (S m) \/ x = x0).

  Lemma newton_step_cases x0 x : 0 < x -> (r <= pw x (S m) \/ x = x0) ->
    (exists x', newton_step (E := E) r degree eps x = inl x' /\ ninv x' /\ eps < Qabs (x' - x) /\ x' == nx r m x) \/
    (exists y, newton_step (E := E) r degree eps x = inr (Ok y) /\ last_step x0 y).
  Proof.
    intros Hx Hor. unfold newton_step.
    destruct (next_x_ok (E := E) r degree x) as (y & -> & Hc & Ey); [lia|lra|]. fold m in Ey.
    pose proof (nx_pos r m Hr x Hx) as P. pose proof (nx_above r m Hr x Hx) as A.
    assert (I : ninv y). { split; [rewrite Ey; exact P|rewrite Ey; exact A]. }
    assert (D : ratio_abs (ratio_sub y x) == Qabs (y - x)). { unfold ratio_abs, ratio_sub. rewrite Qred_correct. reflexivity. }
    destruct (ratio_le (ratio_abs (ratio_sub y x)) eps) eqn:L.
    - right. exists y. split; [reflexivity|]. split; [exact Hc|]. split; [exact I|].
      exists x. apply ratio_le_spec in L. rewrite D in L. auto.
    - left. exists y. apply ratio_le_false in L. rewrite D in L. auto.
  Qed.

  Lemma newton_pos x0 : 0 < x0 -> exists y, newton (E := E) r degree eps x0 = Ok y /\ last_step x0 y.
  Proof.
    intros Hx0. unfold newton, newton_fuel.
    destruct (next_x_ok (E := unit) r degree x0) as (x1 & -> & Hc & E1); [lia|lra|]. fold m in E1.
    rewrite iter_until_N. set (n := (2 + Z.abs (Qnum x1) * Zpos (Qden eps))%Z).
    assert (En : Pos.to_nat (Z.to_pos n) = S (Z.to_nat (n - 1))) by lia. rewrite En. cbn [iterN].
    destruct (newton_step_cases x0 x0 Hx0 (or_intror eq_refl)) as [(x' & -> & Hi & _ & Ex)|(y & -> & Hy)]; [|eauto].
    assert (x' == x1) by (rewrite Ex, E1; reflexivity).
    set (R := inject_Z (Zpos (Qden eps))).
    assert (HR : 0 < R) by (unfold R, Qlt, inject_Z; simpl; lia).
    pose proof eps_R as ER. fold R in ER.
    destruct (iterN_stops (newton_step (E := E) r degree eps) ninv (fun x => x * R))
      with (n := Z.to_nat (n - 1)) (s := x') as (s' & res & Hs' & Hres & ->).
    - intros s s1 (Ps & As) Hs1.
      destruct (newton_step_cases x0 s Ps (or_introl As)) as [(s2 & E2 & I2 & L2 & N2)|(y & E2 & _)]; [|congruence].
      rewrite E2 in Hs1. injection Hs1 as <-. split; [exact I2|].
      pose proof (nx_decreases r m s Ps As) as Dec. rewrite <- N2 in Dec.
      rewrite Qabs_neg in L2 by lra. nra.
    - intros s (Ps & _). nra.
    - exact Hi.
    - rewrite Z2Nat.id by (unfold n; lia). rewrite H.
      assert (B : x1 <= inject_Z (Z.abs (Qnum x1))).
      { destruct x1 as [a b]. unfold Qle, inject_Z; simpl. nia. }
      apply Qle_lt_trans with (inject_Z (Z.abs (Qnum x1)) * R); [nra|].
      unfold R. rewrite <- inject_Z_mult, <- Zlt_Qlt. unfold n. lia.
    - destruct Hs' as (Ps & As).
      destruct (newton_step_cases x0 s' Ps (or_introl As)) as [(s2 & E2 & _)|(y & E2 & Hy)]; [congruence|].
      rewrite E2 in Hres. injection Hres as <-. eauto.
  Qed.

  Lemma last_step_near x0 y : 1 <= r -> 0 < x0 -> last_step x0 y ->
    forall e, (e = inject_Z (Z.of_nat m) * eps \/ (e = eps /\ 2 * inject_Z (Z.of_nat (S m)) * eps <= 1)) ->
    forall z, 0 <= z -> z <= y - e -> pw z (S m) <= r.
  Proof.
    intros H1 Hx0 (Hc & (Py & Ay) & x & Px & Ey & He & Hor) e Hee z Hz Hle.
    pose proof eps_pos as EP.
    assert (Hm : (1 <= m)%nat) by (unfold m; lia).
    assert (K : 1 <= inject_Z (Z.of_nat m)). { unfold Qle, inject_Z; simpl. lia. }
    assert (Dec : r <= pw x (S m) \/ pw x (S m) < r).
    { destruct (Qlt_le_dec (pw x (S m)) r); auto. }
    destruct Dec as [Ha|Hb].
    - pose proof (nx_decreases r m x Px Ha) as D. rewrite <- Ey in D.
      rewrite Qabs_neg in He by lra.
      destruct Hee as [->|[-> Hs]].
      + apply (accuracy_general r m x eps Px Ha) with (z := z); auto; rewrite <- Ey; [lra|exact Hle].
      + apply (accuracy_sharp r m x eps) with (z := z); auto; try (rewrite <- Ey; lra).
        apply (pw_le_inv 1 x m); [lra|]. unfold pw at 1. rewrite Qpower_1. lra.
    - assert (y - x <= eps). { pose proof (Qle_Qabs (y - x)). lra. }
      apply Qle_trans with (pw x (S m)); [|lra]. apply pw_le; [exact Hz|].
      destruct Hee as [->|[-> _]]; nra.
  Qed.
End Loop.

(** * The negative case, by symmetry *)

Definition omap_opp {E} (o : outcome E Q) : outcome E Q :=
  match o with Ok q => Ok (- q) | Err e => Err e | Panic p => Panic p end.

Lemma odd_to_nat degree : N.odd degree = true -> Nat.odd (N.to_nat degree) = true.
Proof.
  intros H. apply N.odd_spec in H as [k ->]. apply Nat.odd_spec. exists (N.to_nat k). lia.
Qed.

Lemma nx_opp r m x : Nat.even m = true -> nx (- r) m (- x) == - nx r m x.
Proof.
  intros Hm. unfold nx. rewrite (pw_neg_even x m Hm).
  rewrite pw_neg_odd by (rewrite Nat.odd_succ; exact Hm). unfold Qdiv. ring.
Qed.

Lemma next_x_opp {E} r degree x : N.odd degree = true -> (2 <= degree)%N ->
  next_x (E := E) (- r) degree (- x) = omap_opp (next_x r degree x).
Proof.
  intros Ho Hd. destruct (Qeq_dec x 0) as [Hx|Hx].
  - rewrite !next_x_zero; auto. rewrite Hx. reflexivity.
  - destruct (next_x_ok (E := E) r degree x) as (y & -> & Hc & Ey); [lia|exact Hx|].
    assert (Hx' : ~ - x == 0) by (intros H0; apply Hx; lra).
    destruct (next_x_ok (E := E) (- r) degree (- x)) as (y' & -> & Hc' & Ey'); [lia|exact Hx'|].
    cbn [omap_opp]. f_equal. apply canon_inj; [exact Hc'|apply canon_opp; exact Hc|].
    rewrite Ey', Ey. apply nx_opp.
    apply odd_to_nat in Ho. destruct (N.to_nat degree) as [|n]; [discriminate|].
    replace (S n - 1)%nat with n by lia. rewrite Nat.odd_succ in Ho. exact Ho.
Qed.

Definition smap_opp {E} (o : Q + outcome E Q) : Q + outcome E Q :=
  match o with inl q => inl (- q) | inr o => inr (omap_opp o) end.

Lemma newton_step_opp {E} r degree eps x : N.odd degree = true -> (2 <= degree)%N ->
  newton_step (E := E) (- r) degree eps (- x) = smap_opp (newton_step r degree eps x).
Proof.
  intros Ho Hd. unfold newton_step. rewrite next_x_opp by assumption.
  destruct (next_x r degree x) as [y|e|p]; cbn [omap_opp]; [|reflexivity|reflexivity].
  assert (E1 : ratio_abs (ratio_sub (- y) (- x)) = ratio_abs (ratio_sub y x)).
  { apply canon_inj.
    - apply canon_abs, canon_Qred.
    - apply canon_abs, canon_Qred.
    - unfold ratio_abs, ratio_sub. rewrite !Qred_correct.
      rewrite <- (Qabs_opp (y - x)). apply Qabs_wd. ring. }
  rewrite E1. destruct (ratio_le _ _); reflexivity.
Qed.

Lemma iterN_opp {E} r degree eps : N.odd degree = true -> (2 <= degree)%N -> forall n x,
  iterN n (newton_step (E := E) (- r) degree eps) (- x) = smap_opp (iterN n (newton_step r degree eps) x).
Proof.
  intros Ho Hd. induction n as [|n IH]; intros x; cbn [iterN]; [reflexivity|].
  rewrite newton_step_opp by assumption. destruct (newton_step r degree eps x); cbn [smap_opp]; [apply IH|reflexivity].
Qed.

Lemma newton_opp {E} r degree eps x : N.odd degree = true -> (2 <= degree)%N ->
  newton (E := E) (- r) degree eps (- x) = omap_opp (newton r degree eps x).
Proof.
  intros Ho Hd. unfold newton. rewrite !iter_until_N.
  assert (F : newton_fuel (- r) degree eps (- x) = newton_fuel r degree eps x).
  { unfold newton_fuel. rewrite next_x_opp by assumption. destruct (next_x r degree x) as [y|e|p]; try reflexivity.
    cbn [omap_opp]. destruct y as [a b]. simpl. rewrite Z.abs_opp. reflexivity. }
  rewrite F, iterN_opp by assumption.
  destruct (iterN _ _ _) as [s|o]; cbn [smap_opp]; [reflexivity|reflexivity].
Qed.

Lemma newton_zero {E} r degree eps x : (2 <= degree)%N -> x == 0 ->
  newton (E := E) r degree eps x = Panic DivideByZero.
Proof.
  intros Hd Hx. unfold newton, newton_fuel. rewrite (next_x_zero (E := unit)) by assumption.
  cbn [iter_until]. unfold newton_step. rewrite next_x_zero by assumption. reflexivity.
Qed.

(** * The integer search on the two intervals *)

Lemma inject_lt a b : (a < b)%Z -> inject_Z a < inject_Z b.
Proof. rewrite <- Zlt_Qlt. auto. Qed.
Lemma inject_le a b : (a <= b)%Z -> inject_Z a <= inject_Z b.
Proof. rewrite <- Zle_Qle. auto. Qed.

Lemma pw_mono_nonneg n a b : (0 <= a)%Z -> (a < b)%Z -> pw (inject_Z a) (S n) < pw (inject_Z b) (S n).
Proof.
  intros Ha Hab. apply pw_lt; [|apply inject_lt; exact Hab]. apply (inject_le 0 a). exact Ha.
Qed.
Lemma pw_mono_odd n a b : Nat.odd (S n) = true -> (a < b)%Z -> (b <= 0)%Z ->
  pw (inject_Z a) (S n) < pw (inject_Z b) (S n).
Proof.
  intros Ho Hab Hb.
  pose proof (pw_mono_nonneg n (- b) (- a) ltac:(lia) ltac:(lia)) as H.
  rewrite !inject_Z_opp, !pw_neg_odd in H by exact Ho. lra.
Qed.

Definition search_interval (t : Q) : Z * Z :=
  if ratio_is_negative t then (ratio_to_integer t, 0%Z) else (0%Z, ratio_to_integer t).

Lemma search_best {E} t degree : (2 <= degree)%N -> (0 <= t \/ N.odd degree = true) ->
  let '(lo, hi) := search_interval t in
  exists x, bisect (E := E) t degree lo hi = Ok x /\ (lo <= x <= hi)%Z /\
    forall y, (lo <= y <= hi)%Z -> F t (N.to_nat degree) x <= F t (N.to_nat degree) y.
Proof.
  intros Hd Hor. unfold search_interval. destruct (ratio_is_negative t) eqn:Hn.
  - apply num_negative in Hn. destruct Hor as [H0|Ho]; [lra|].
    apply bisect_best.
    + intros a b Ha Hab Hb. destruct (N.to_nat degree) as [|n] eqn:En; [lia|]. apply pw_mono_odd; auto.
      rewrite <- En. apply odd_to_nat, Ho.
    + pose proof (to_integer_nonneg (- t) ltac:(lra)) as (A & _). rewrite to_integer_opp in A. lia.
  - apply num_nonneg in Hn. apply bisect_best.
    + intros a b Ha Hab Hb. destruct (N.to_nat degree) as [|n] eqn:En; [lia|]. apply pw_mono_nonneg; auto.
    + apply to_integer_nonneg, Hn.
Qed.

(** integers with [k^d = t] are inside the interval *)
Lemma pw_ge_self (k : Z) n : (0 <= k)%Z -> inject_Z k <= pw (inject_Z k) (S n).
Proof.
  intros Hk. destruct (Z.eq_dec k 0) as [->|Hne].
  - rewrite pw_S. change (inject_Z 0) with 0. lra.
  - assert (H1 : 1 <= inject_Z k) by (apply (inject_le 1 k); lia).
    assert (1 <= pw (inject_Z k) n).
    { apply Qle_trans with (pw 1 n); [unfold pw; rewrite Qpower_1; lra|]. apply pw_le; lra. }
    rewrite pw_S. nra.
Qed.
Lemma floor_bound k t : 0 <= t -> inject_Z k <= t -> (k <= ratio_to_integer t)%Z.
Proof.
  intros Ht H. pose proof (to_integer_nonneg t Ht) as (_ & _ & B).
  assert (inject_Z k < inject_Z (ratio_to_integer t + 1)) by lra. rewrite <- Zlt_Qlt in H0. lia.
Qed.
Lemma root_in_interval t n k : Nat.odd (S n) = true \/ (0 <= k)%Z -> pw (inject_Z k) (S n) == t ->
  let '(lo, hi) := search_interval t in (lo <= k <= hi)%Z.
Proof.
  intros Hk E. unfold search_interval. destruct (ratio_is_negative t) eqn:Hn.
  - apply num_negative in Hn. destruct (Z_le_gt_dec 0 k) as [L|L].
    { pose proof (pw_nonneg (inject_Z k) (S n) (inject_le 0 k L)). lra. }
    destruct Hk as [Ho|?]; [|lia]. split; [|lia].
    assert (E' : pw (inject_Z (- k)) (S n) == - t).
    { rewrite inject_Z_opp, pw_neg_odd by exact Ho. rewrite E. reflexivity. }
    pose proof (pw_ge_self (- k) n ltac:(lia)) as G. rewrite E' in G.
    apply floor_bound in G; [|lra]. rewrite to_integer_opp in G. lia.
  - apply num_nonneg in Hn.
    assert (0 <= k)%Z.
    { destruct Hk as [Ho|?]; [|assumption]. destruct (Z_le_gt_dec 0 k) as [L|L]; [assumption|exfalso].
      assert (0 < pw (inject_Z (- k)) (S n)). { apply pw_pos. apply (inject_lt 0 (- k)). lia. }
      rewrite inject_Z_opp, pw_neg_odd in H by exact Ho. lra. }
    split; [assumption|]. apply floor_bound; [exact Hn|]. rewrite <- E. apply pw_ge_self. assumption.
Qed.
