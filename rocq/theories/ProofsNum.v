(** ProofsNum.v -- lemmas about the rational operations of Num.v. *)
From Verif Require Import Base Num.
From Coq Require Import Qabs Qpower Qcanon Qround Znumtheory Zpow_facts Lqa.
Close Scope Qc_scope.
Local Open Scope Q_scope.

Lemma canon_gcd a : Num.canon a <-> Z.gcd (Qnum a) (Zpos (Qden a)) = 1%Z.
Proof. apply Qred_iff. Qed.
Lemma canon_Qred a : Num.canon (Qred a).
Proof. apply Qred_involutive. Qed.
Lemma canon_inj a b : Num.canon a -> Num.canon b -> a == b -> a = b.
Proof. intros Ha Hb H. rewrite <- Ha, <- Hb. apply Qred_complete, H. Qed.
Lemma canon_of a b : Num.canon a -> a == b -> a = Qred b.
Proof. intros Ha H. rewrite <- Ha. apply Qred_complete, H. Qed.
Lemma canon_int z : Num.canon (z # 1).
Proof. apply canon_gcd. simpl. apply Z.gcd_1_r. Qed.
Lemma canon_opp a : Num.canon a -> Num.canon (- a).
Proof. unfold Num.canon. intros H. rewrite Qred_opp, H. reflexivity. Qed.
Lemma canon_abs a : Num.canon a -> Num.canon (Qabs a).
Proof. rewrite !canon_gcd. destruct a as [n d]. simpl. intros H. rewrite Z.gcd_abs_l. exact H. Qed.

Lemma ratio_pow_spec a n : ratio_pow a n == a ^ Z.of_N n.
Proof.
  destruct a as [p q], n as [|k]; unfold ratio_pow; cbn [Qnum Qden Z.of_N].
  - reflexivity.
  - symmetry. apply Qpower_decomp_pos.
Qed.
Lemma canon_pow a n : Num.canon a -> Num.canon (ratio_pow a n).
Proof.
  rewrite !canon_gcd. destruct a as [p q], n as [|k]; unfold ratio_pow; cbn [Qnum Qden Z.of_N].
  - intros _. reflexivity.
  - intros H. rewrite Pos2Z.inj_pow. apply Zgcd_1_rel_prime. apply rel_prime_Zpower; [lia|lia|].
    apply Zgcd_1_rel_prime. exact H.
Qed.
Lemma num_zero a : Z.eqb (Qnum a) 0 = true <-> a == 0.
Proof. rewrite Z.eqb_eq. destruct a as [p q]. unfold Qeq; simpl. lia. Qed.
Lemma num_nonzero a : Z.eqb (Qnum a) 0 = false <-> ~ a == 0.
Proof. rewrite <- num_zero. destruct (Z.eqb (Qnum a) 0); split; congruence. Qed.
Lemma num_negative a : ratio_is_negative a = true <-> a < 0.
Proof. unfold ratio_is_negative. rewrite Z.ltb_lt. destruct a as [p q]. unfold Qlt; simpl. lia. Qed.
Lemma num_nonneg a : ratio_is_negative a = false <-> 0 <= a.
Proof. unfold ratio_is_negative. rewrite Z.ltb_ge. destruct a as [p q]. unfold Qle; simpl. lia. Qed.
Lemma ratio_lt_spec a b : ratio_lt a b = true <-> a < b.
Proof. unfold ratio_lt. rewrite Qlt_alt. destruct (a ?= b); split; congruence. Qed.
Lemma ratio_lt_false a b : ratio_lt a b = false <-> b <= a.
Proof.
  rewrite <- not_true_iff_false, ratio_lt_spec. split; [apply Qnot_lt_le|apply Qle_not_lt].
Qed.
Lemma ratio_le_spec a b : ratio_le a b = true <-> a <= b.
Proof. unfold ratio_le. rewrite Qle_alt. destruct (a ?= b); split; congruence. Qed.
Lemma ratio_le_false a b : ratio_le a b = false <-> b < a.
Proof.
  rewrite <- not_true_iff_false, ratio_le_spec. split; [apply Qnot_le_lt|apply Qlt_not_le].
Qed.
Lemma ratio_div_ok {E} a b : ~ b == 0 -> ratio_div (E := E) a b = Ok (Qred (a / b)).
Proof. intros H. unfold ratio_div. apply num_nonzero in H. rewrite H. reflexivity. Qed.
Lemma ratio_inv_ok {E} a : ~ a == 0 -> ratio_inv (E := E) a = Ok (/ a).
Proof. intros H. unfold ratio_inv. apply num_nonzero in H. rewrite H. reflexivity. Qed.
Lemma canon_inv a : Num.canon a -> Num.canon (/ a).
Proof.
  rewrite !canon_gcd. destruct a as [[|p|p] q]; unfold Qinv; cbn [Qnum Qden]; intros H.
  - reflexivity.
  - rewrite Z.gcd_comm. exact H.
  - rewrite Z.gcd_comm. change (Zneg q) with (- Zpos q)%Z. rewrite Z.gcd_opp_r. rewrite <- H.
    change (Zneg p) with (- Zpos p)%Z. rewrite Z.gcd_opp_l. reflexivity.
Qed.
Lemma ratio_max_spec a b : (ratio_max a b = a \/ ratio_max a b = b) /\ a <= ratio_max a b /\ b <= ratio_max a b.
Proof.
  unfold ratio_max. destruct (Qcompare a b) eqn:E.
  - apply Qeq_alt in E. repeat split; auto; rewrite ?E; lra.
  - apply Qlt_alt in E. repeat split; auto; lra.
  - apply Qgt_alt in E. repeat split; auto; lra.
Qed.
Lemma ratio_min_spec a b : (ratio_min a b = a \/ ratio_min a b = b) /\ ratio_min a b <= a /\ ratio_min a b <= b.
Proof.
  unfold ratio_min. destruct (Qcompare a b) eqn:E.
  - apply Qeq_alt in E. repeat split; auto; rewrite ?E; lra.
  - apply Qlt_alt in E. repeat split; auto; lra.
  - apply Qgt_alt in E. repeat split; auto; lra.
Qed.

(** [to_integer] truncates. *)
Lemma to_integer_nonneg r : 0 <= r ->
  (0 <= ratio_to_integer r)%Z /\ inject_Z (ratio_to_integer r) <= r /\ r < inject_Z (ratio_to_integer r + 1).
Proof.
  destruct r as [p q]. unfold Qle, Qlt, ratio_to_integer; simpl. rewrite Z.mul_1_r. intros H.
  rewrite Z.quot_div_nonneg by lia.
  pose proof (Z.div_mod p (Zpos q)) as D. pose proof (Z.mod_pos_bound p (Zpos q) ltac:(lia)).
  specialize (D ltac:(lia)). pose proof (Z.div_pos p (Zpos q) H ltac:(lia)).
  repeat split; nia.
Qed.
Lemma to_integer_opp r : ratio_to_integer (- r) = (- ratio_to_integer r)%Z.
Proof. destruct r as [p q]. unfold ratio_to_integer; simpl. apply Z.quot_opp_l. lia. Qed.

(** powers with a natural exponent *)
Definition pw (x : Q) (n : nat) : Q := x ^ Z.of_nat n.
#[global] Instance pw_comp : Proper (Qeq ==> eq ==> Qeq) pw.
Proof. intros x y H n m ->. unfold pw. rewrite H. reflexivity. Qed.
Lemma pw_0 x : pw x 0 == 1.
Proof. reflexivity. Qed.
Lemma pw_S x n : pw x (S n) == x * pw x n.
Proof.
  unfold pw. rewrite Nat2Z.inj_succ, <- Z.add_1_l.
  rewrite Qpower_plus' by lia. rewrite Qpower_1_r. reflexivity.
Qed.
Lemma pw_1 x : pw x 1 == x.
Proof. rewrite pw_S, pw_0. lra. Qed.
Lemma pw_pos x n : 0 < x -> 0 < pw x n.
Proof. intros H. induction n as [|n IH]; [rewrite pw_0; lra|]. rewrite pw_S. nra. Qed.
Lemma pw_nonneg x n : 0 <= x -> 0 <= pw x n.
Proof. intros H. induction n as [|n IH]; [rewrite pw_0; lra|]. rewrite pw_S. nra. Qed.
Lemma pw_le x y n : 0 <= x -> x <= y -> pw x n <= pw y n.
Proof.
  intros Hx H. induction n as [|n IH]; [rewrite !pw_0; lra|]. rewrite !pw_S.
  pose proof (pw_nonneg x n Hx). nra.
Qed.
Lemma pw_lt x y n : 0 <= x -> x < y -> pw x (S n) < pw y (S n).
Proof.
  intros Hx H. rewrite !pw_S. pose proof (pw_nonneg x n Hx). pose proof (pw_le x y n Hx ltac:(lra)).
  pose proof (pw_pos y n ltac:(lra)). nra.
Qed.
Lemma pw_mult x y n : pw (x * y) n == pw x n * pw y n.
Proof. apply Qmult_power. Qed.
Lemma pw_le_inv x y n : 0 <= y -> pw x (S n) <= pw y (S n) -> x <= y.
Proof.
  intros Hy H. destruct (Qlt_le_dec y x) as [L|L]; [|exact L].
  pose proof (pw_lt y x n Hy L). lra.
Qed.
Lemma bernoulli t n : -1 <= t -> 1 + inject_Z (Z.of_nat n) * t <= pw (1 + t) n.
Proof.
  intros Ht. induction n as [|n IH].
  - rewrite pw_0. simpl. unfold inject_Z. nra.
  - rewrite pw_S. rewrite Nat2Z.inj_succ, <- Z.add_1_l, inject_Z_plus. unfold inject_Z at 1.
    set (k := inject_Z (Z.of_nat n)) in *. assert (0 <= k) by (unfold k, inject_Z, Qle; simpl; lia).
    nra.
Qed.
Lemma pw_neg_odd x n : Nat.odd n = true -> pw (- x) n == - pw x n.
Proof.
  intros H. apply Nat.odd_spec in H as [m ->].
  assert (E : forall y, pw y (2 * m) == pw (y * y) m).
  { intros y. unfold pw. rewrite Nat2Z.inj_mul, Qpower_mult. simpl Z.of_nat. apply Qpower_comp; [|reflexivity]. reflexivity. }
  rewrite !Nat.add_1_r, !pw_S, !E.
  assert (E2 : - x * - x == x * x) by ring. rewrite E2. ring.
Qed.
Lemma pw_neg_even x n : Nat.even n = true -> pw (- x) n == pw x n.
Proof.
  intros H. apply Nat.even_spec in H as [m ->].
  assert (E : forall y, pw y (2 * m) == pw (y * y) m).
  { intros y. unfold pw. rewrite Nat2Z.inj_mul, Qpower_mult. simpl Z.of_nat. apply Qpower_comp; [|reflexivity]. reflexivity. }
  rewrite !E. assert (E2 : - x * - x == x * x) by ring. rewrite E2. reflexivity.
Qed.
Lemma pw_even_nonneg x n : Nat.even n = true -> 0 <= pw x n.
Proof.
  intros H. apply Nat.even_spec in H as [m ->].
  unfold pw. rewrite Nat2Z.inj_mul, Qpower_mult. change (Z.of_nat 2) with 2%Z.
  apply Qpower_0_le. apply Qsqr_nonneg.
Qed.
