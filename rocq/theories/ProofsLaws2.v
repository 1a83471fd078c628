(** ProofsLaws2.v -- the laws are identities. *)
From Verif Require Import Base Num SpecEval SpecLaws ProofsEval ProofsEval2.
From Coq Require Import QArith Qabs Qpower Qminmax Lqa Qfield Lia.
Local Open Scope Q_scope.

Definition vals (x y z : Q) (i : nat) : Q := match i with O => x | 1%nat => y | _ => z end.

Lemma remainder_exists x y : ~ y == 0 -> exists r, remainder x y r.
Proof. intros N. destruct (ratio_rem_spec (F := unit) x y N) as (r & _ & _ & R). eauto. Qed.
Lemma remainder_opp x y r : remainder x y r -> remainder (- x) y (- r).
Proof.
  intros ((q & E) & B & S). split; [exists (- q)%Z; rewrite inject_Z_opp, E; ring|]. split; [rewrite Qabs_opp; exact B|].
  destruct S as [S|[[S1 S2]|[S1 S2]]]; [left; rewrite S; reflexivity|right; right; split; lra|right; left; split; lra].
Qed.
Lemma remainder_sign x y r : remainder x y r -> remainder x (- y) r.
Proof. intros ((q & E) & B & S). split; [exists (- q)%Z; rewrite inject_Z_opp, E; ring|]. split; [rewrite Qabs_opp; exact B|exact S]. Qed.
Lemma remainder_again x y r : remainder x y r -> remainder r y r.
Proof. intros (_ & B & S). split; [exists 0%Z; change (inject_Z 0) with 0; ring|]. split; [exact B|]. destruct S as [S|[[S1 S2]|[S1 S2]]]; tauto. Qed.
Lemma remainder_scaled x y z r : ~ z == 0 -> remainder x y r -> remainder (x * z) (y * z) (r * z).
Proof.
  intros N ((q & E) & B & S). split; [exists q; rewrite E; ring|]. split.
  - rewrite !Qabs_Qmult. apply Qmult_lt_r; [|exact B]. revert N. apply Qabs_case; intros; lra.
  - assert (Z : z < 0 \/ 0 < z) by (destruct (Q_dec z 0) as [[H|H]|H]; [left; exact H|right; exact H|contradiction]).
    destruct S as [S|[[S1 S2]|[S1 S2]]]; [left; rewrite S; ring|..]; right; destruct Z as [Z|Z]; [right|left|left|right]; split; nra.
Qed.

Lemma Qpower_sum x m n : (0 <= m /\ 0 <= n)%Z \/ ~ x == 0 -> x ^ (m + n) == x ^ m * x ^ n.
Proof.
  intros [[Hm Hn]|N]; [|apply Qpower_plus; exact N]. destruct (Z.eq_dec (m + n) 0) as [E|E]; [|apply Qpower_plus'; exact E].
  assert (m = 0%Z) as -> by lia. assert (n = 0%Z) as -> by lia. reflexivity.
Qed.
Lemma Qpower_nonzero x n : ~ x == 0 -> ~ x ^ n == 0.
Proof. apply Qpower_not_0. Qed.
Lemma Qpower_eq_one x : x ^ 1 == x.
Proof. reflexivity. Qed.


Lemma denotes_eq val f q q' : q == q' -> denotes val f q -> denotes val f q'.
Proof.
  intros E D. destruct D; econstructor; try eassumption; try (rewrite <- E; assumption).
  match goal with R : remainder _ _ _ |- _ => destruct R as ((k & R1) & R2 & R3) end.
  split; [exists k; rewrite <- E; exact R1|]. split; [rewrite <- E; exact R2|]. rewrite <- E. exact R3.
Qed.
Lemma both val f g q q' : denotes val f q -> denotes val g q' -> q == q' -> exists q, denotes val f q /\ denotes val g q.
Proof. intros D D' E. exists q'. split; [eapply denotes_eq; eassumption|exact D']. Qed.

Ltac nonzero := cbn [vals]; try assumption; try discriminate; try (apply Qpower_not_0; assumption).
Ltac build := match goal with
  | |- denotes _ (Part _) _ => eapply dn_part; reflexivity
  | |- denotes _ (Whole _) _ => eapply dn_whole; reflexivity
  | |- denotes _ (Sum _ _) _ => eapply dn_sum; [build|build|reflexivity]
  | |- denotes _ (Difference _ _) _ => eapply dn_difference; [build|build|reflexivity]
  | |- denotes _ (Product _ _) _ => eapply dn_product; [build|build|reflexivity]
  | |- denotes _ (Quotient _ _) _ => eapply dn_quotient; [build|build|nonzero|reflexivity]
  | |- denotes _ (Remainder _ _) _ => eapply dn_remainder; [build|build|nonzero|]
  | |- denotes _ (Opposite _) _ => eapply dn_opposite; [build|reflexivity]
  | |- denotes _ (Absolute _) _ => eapply dn_absolute; [build|reflexivity]
  | |- denotes _ (Largest _ _) _ => eapply dn_largest; [build|build|reflexivity]
  | |- denotes _ (Smallest _ _) _ => eapply dn_smallest; [build|build|reflexivity]
  end.
Ltac mm := repeat match goal with
  | |- context [Qmax ?a ?b] => let H := fresh in generalize (Q.max_spec a b); generalize (Qmax a b); intros ? H
  | |- context [Qmin ?a ?b] => let H := fresh in generalize (Q.min_spec a b); generalize (Qmin a b); intros ? H
  end; repeat match goal with H : _ /\ _ |- _ => destruct H | H : _ \/ _ |- _ => destruct H end.

Lemma law_identity x y z f g : law x y z f g -> exists q, denotes (vals x y z) f q /\ denotes (vals x y z) g q.
Proof.
  intros L. induction L.
  - eapply both; [build|build|cbn [vals]; ring].
  - eapply both; [build|build|cbn [vals]; ring].
  - eapply both; [build|build|cbn [vals]; change (inject_Z (Z.of_N 0)) with 0; ring].
  - eapply both; [build|build|cbn [vals]; change (inject_Z (Z.of_N 0)) with 0; ring].
  - eapply both; [build|build|cbn [vals]; ring].
  - eapply both; [build|build|cbn [vals]; ring].
  - eapply both; [build|build|cbn [vals]; ring].
  - eapply both; [build|build|cbn [vals]; ring].
  - eapply both; [build|build|cbn [vals]; ring].
  - eapply both; [build|build|cbn [vals]; ring].
  - eapply both; [build|build|cbn [vals]; change (inject_Z (Z.of_N 1)) with 1; ring].
  - eapply both; [build|build|cbn [vals]; change (inject_Z (Z.of_N 0)) with 0; ring].
  - eapply both; [build|build|cbn [vals]; ring].
  - eapply both; [build|build|cbn [vals]; ring].
  - eapply both; [build|build|cbn [vals]; ring].
  - eapply both; [build|build|cbn [vals]; change (inject_Z (Z.of_N 1)) with 1; field; assumption].
  - eapply both; [build|build|cbn [vals]; field; assumption].
  - eapply both; [build|build|cbn [vals]; field; assumption].
  - eapply both; [build|build|cbn [vals]; change (inject_Z (Z.of_N 1)) with 1; field; assumption].
  - assert (~ y * z == 0) by (intros E; apply Qmult_integral in E as [E|E]; contradiction).
    eapply both; [build|build|cbn [vals]; field; auto].
  - eapply both; [build|build|cbn [vals]; field; assumption].
  - assert (~ y * z == 0) by (intros E; apply Qmult_integral in E as [E|E]; contradiction).
    eapply both; [build|build|cbn [vals]; field; auto].
  - match goal with N : ~ y == 0 |- _ => destruct (remainder_exists x y N) as (r & R) end.
    eapply both; [build; apply remainder_opp; exact R|eapply dn_opposite; [build; exact R|reflexivity]|reflexivity].
  - match goal with N : ~ y == 0 |- _ => destruct (remainder_exists x y N) as (r & R) end.
    assert (~ - y == 0) by (intros E; apply H; lra).
    eapply both; [build; apply remainder_sign; exact R|build; exact R|reflexivity].
  - match goal with N : ~ y == 0 |- _ => destruct (remainder_exists x y N) as (r & R) end.
    eapply both; [eapply dn_remainder; [build; exact R|build|nonzero|eapply remainder_again; exact R]|build; exact R|reflexivity].
  - match goal with N : ~ y == 0 |- _ => destruct (remainder_exists x y N) as (r & R) end.
    assert (~ y * z == 0) by (intros E; apply Qmult_integral in E as [E|E]; contradiction).
    eapply both; [build; apply remainder_scaled; [|exact R]; assumption|eapply dn_product; [build; exact R|build|reflexivity]|reflexivity].
  - eapply both; [eapply dn_power with (z := 0%Z); [build|build|reflexivity|left; lia|reflexivity]|build|reflexivity].
  - eapply both; [eapply dn_power with (z := 1%Z); [build|build|reflexivity|left; lia|reflexivity]|build|reflexivity].
  - eapply both; [eapply dn_power with (z := 2%Z); [build|build|reflexivity|left; lia|reflexivity]|build|cbn [vals]; unfold Qpower, Qpower_positive; cbn; ring].
  - eapply both; [eapply dn_power with (z := (m + n)%Z); [build|build|cbn [vals]; rewrite inject_Z_plus, H, H0; reflexivity|destruct H1 as [[? ?]|?]; [left; lia|right; assumption]|reflexivity]
      |eapply dn_product; [eapply dn_power with (z := m); [build|build|exact H|destruct H1 as [[? ?]|?]; [left; assumption|right; assumption]|reflexivity]
        |eapply dn_power with (z := n); [build|build|exact H0|destruct H1 as [[? ?]|?]; [left; assumption|right; assumption]|reflexivity]|reflexivity]|].
    cbn [vals]. apply Qpower_sum. exact H1.
  - eapply both; [eapply dn_power with (z := n); [eapply dn_power with (z := m); [build|build|exact H|destruct H1 as [[? ?]|?]; [left; assumption|right; assumption]|reflexivity]|build|exact H0
        |destruct H1 as [[? ?]|?]; [left; assumption|right; apply Qpower_not_0; assumption]|reflexivity]
      |eapply dn_power with (z := (m * n)%Z); [build|build|cbn [vals]; rewrite inject_Z_mult, H, H0; reflexivity|destruct H1 as [[? ?]|?]; [left; nia|right; assumption]|reflexivity]|].
    cbn [vals]. symmetry. apply Qpower_mult.
  - eapply both; [eapply dn_power with (z := n); [build|build|exact H|destruct H0 as [?|[? ?]]; [left; assumption|right; intros E; apply Qmult_integral in E as [E|E]; contradiction]|reflexivity]
      |eapply dn_product; [eapply dn_power with (z := n); [build|build|exact H|destruct H0 as [?|[? ?]]; [left; assumption|right; assumption]|reflexivity]
        |eapply dn_power with (z := n); [build|build|exact H|destruct H0 as [?|[? ?]]; [left; assumption|right; assumption]|reflexivity]|reflexivity]|].
    cbn [vals]. apply Qmult_power.
  - eapply both; [eapply dn_power with (z := (- m)%Z); [build|build|cbn [vals]; rewrite inject_Z_opp, H; reflexivity|right; assumption|reflexivity]
      |eapply dn_quotient; [build|eapply dn_power with (z := m); [build|build|exact H|right; assumption|reflexivity]|cbn [vals]; apply Qpower_not_0; assumption|reflexivity]|].
    cbn [vals]. rewrite Qpower_opp. change (inject_Z (Z.of_N 1)) with 1. unfold Qdiv. ring.
  - eapply both; [build|build|cbn [vals]; apply Qabs_opp].
  - eapply both; [build|build|cbn [vals]; apply Qabs_pos, Qabs_nonneg].
  - eapply both; [build|build|cbn [vals]; apply Qabs_Qmult].
  - eapply both; [build|build|cbn [vals]; apply Qabs_case; intros; mm; lra].
  - eapply both; [build|build|cbn [vals]; apply Q.max_comm].
  - eapply both; [build|build|cbn [vals]; symmetry; apply Q.max_assoc].
  - eapply both; [build|build|cbn [vals]; apply Q.max_id].
  - eapply both; [build|build|cbn [vals]; symmetry; apply Q.plus_max_distr_l].
  - eapply both; [build|build|cbn [vals]; apply Q.min_comm].
  - eapply both; [build|build|cbn [vals]; symmetry; apply Q.min_assoc].
  - eapply both; [build|build|cbn [vals]; mm; lra].
  - eapply both; [build|build|cbn [vals]; mm; lra].
  - eapply both; [build|build|cbn [vals]; apply Q.max_l, Q.le_min_l].
  - destruct IHL as (q & D1 & D2). exists q. split; assumption.
Qed.
