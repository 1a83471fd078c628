(** PropertiesRounds.v -- C102: roots are found in few rounds. *)
From Verif Require Import Base Position Num TokenTypes Errors SavedData Variables Operations Token SyntaxTree.
From Verif Require Import SpecLex SpecGrammar SpecEval SpecRounds ProofsNum ProofsRoot ProofsPower ProofsParse2 ProofsEval ProofsEval2 ProofsEval3 ProofsRounds PropertiesEval.
From Coq Require Import Qabs Qpower String Lqa.
Local Open Scope Q_scope.

(** C102. A value that [l ^ r] has, the exponent being [n / d] in lowest terms and the [n]-th power of the base at most
    [2 ^ b] in magnitude, was found by halving the whole numbers from 0 to that power in at most [b + 1] rounds; and then,
    unless that already found the root, by Newton's formula, repeated until it moves by at most one unit in
    the last of the [k] kept digits, in at most [2 + d (b + c k)] rounds, where the radix is at most [2 ^ c]: the
    work grows with the number of digits of the operands and of the answer, not with their size. *)
Theorem C102_rounds : forall pr a k p l r s s1 s2 x y n d v (b : nat) (c : N), settings_ok a -> digits_kept pr a = Some k ->
  env_ok s -> literals_ok l -> literals_ok r -> exec pr a l s = (s1, Ok x) -> exec pr a r s1 = (s2, Ok y) ->
  exec pr a (NBin Exponent p l r) s = (s2, Ok v) ->
  fraction y n d -> Qabs (x ^ n) <= inject_Z (2 ^ Z.of_nat b) -> (a_radix a <= 2 ^ c)%N ->
  exists lo hi x0 i, between_zero_and (x ^ n) lo hi /\ searched (x ^ n) d lo hi i x0 /\ (i <= b + 1)%nat /\
    ((inject_Z x0 ^ Zpos d == x ^ n /\ v == inject_Z x0) \/
     (~ inject_Z x0 ^ Zpos d == x ^ n /\
      exists j, refined (x ^ n) d (tolerance (a_radix a) k) (inject_Z x0) j v /\
        (j <= 2 + Pos.to_nat d * (b + N.to_nat (c * k)))%nat)).
Proof.
  intros pr a k p l r s s1 s2 x y n d v b c Ha Hk Hs Hl Hr E1 E2 E Hf Hb Hc.
  destruct (operands_canon pr a l r s s1 s2 x y Ha Hs Hl Hr E1 E2) as [Cx Cy].
  rewrite (exec_bin_val pr a Exponent p l r s s1 s2 x y E1 E2) in E. apply pair_equal_spec in E as [_ E]. cbn [exec_binary] in E.
  eapply exec_power_rounds; eauto. unfold pw. change 2 with (inject_Z 2). rewrite <- Zpower_Qpower by apply Zle_0_nat. exact Hb.
Qed.
Print Assumptions C102_rounds.
Theorem C102_sqrt : forall pr a k p m s s1 x v (b : nat) (c : N), settings_ok a -> digits_kept pr a = Some k ->
  env_ok s -> literals_ok m -> exec pr a m s = (s1, Ok x) -> exec pr a (NUn SquareRoot p m) s = (s1, Ok v) ->
  x <= inject_Z (2 ^ Z.of_nat b) -> (a_radix a <= 2 ^ c)%N ->
  exists x0 i, searched x 2 0 (Qround.Qfloor x) i x0 /\ (i <= b + 1)%nat /\
    ((inject_Z x0 * inject_Z x0 == x /\ v == inject_Z x0) \/
     (~ inject_Z x0 * inject_Z x0 == x /\
      exists j, refined x 2 (tolerance (a_radix a) k) (inject_Z x0) j v /\ (j <= 2 + 2 * (b + N.to_nat (c * k)))%nat)).
Proof.
  intros pr a k p m s s1 x v b c Ha Hk Hs Hm E1 E Hb Hc.
  assert (Cx : canon x) by (eapply exec_meaning; eauto).
  pose proof (C21_sqrt_accuracy pr a k p m s s1 x v Ha Hk Hs Hm E1 E) as (V0 & V1 & _).
  rewrite (exec_un_val pr a SquareRoot p m s s1 x E1) in E. apply pair_equal_spec in E as [_ E]. cbn [exec_unary] in E.
  assert (Hf : fraction (1 # 2) 1 2) by (split; [reflexivity|split; reflexivity]).
  assert (X0 : 0 <= x).
  { destruct (Qlt_le_dec x 0) as [L|L]; [exfalso|exact L].
    destruct (exec_power_sound pr a Ha p x (1 # 2) Cx eq_refl) as [P _]. rewrite E in P. unfold power_with in P. rewrite Hk in P.
    destruct P as [P|(q & Eq & n' & d' & Hf' & Hl' & Ho & _)].
    - inversion P; subst; [eapply fraction_not_integer; [reflexivity|exact Hf|eassumption]|].
      match goal with F : fraction _ ?n' ?d' |- _ => destruct (fraction_unique _ _ _ _ _ _ (Qeq_refl _) Hf F) as [<- <-] end.
      rewrite Qpower_1_r in *. match goal with H : inject_Z ?j ^ 2 == x |- _ => change (inject_Z j * inject_Z j == x) in H end. nra.
    - destruct (fraction_unique _ _ _ _ _ _ (Qeq_refl _) Hf Hf') as [<- <-]. rewrite Qpower_1_r in Ho. destruct Ho as [Ho|Ho]; [lra|discriminate]. }
  assert (T : x ^ 1 == x) by apply Qpower_1_r.
  destruct (exec_power_rounds pr a p x (1 # 2) 1 2 v b c k Ha Cx eq_refl Hf Hk) as (lo & hi & x0 & i & B & Se & Hi & R); [|exact Hc|exact E|].
  { rewrite T, Qabs_pos by exact X0. unfold pw. change 2 with (inject_Z 2). rewrite <- Zpower_Qpower by apply Zle_0_nat. exact Hb. }
  apply (between_eq _ x) in B; [|exact T]. apply (searched_eq _ x) in Se; [|exact T].
  assert (lo = 0%Z /\ hi = Qround.Qfloor x) as [-> ->] by (destruct B as [_|?]; [auto|lra]).
  exists x0, i. split; [exact Se|]. split; [exact Hi|].
  assert (S2 : inject_Z x0 ^ 2 == inject_Z x0 * inject_Z x0) by reflexivity.
  destruct R as [[R1 R2]|(R1 & j & Rf & Hj)]; [left; rewrite <- S2, R1; auto|right]. split; [rewrite <- S2, <- T; exact R1|].
  exists j. split; [|exact Hj]. exact (refined_eq _ _ _ _ _ _ _ T Rf _ (Qeq_refl _)).
Qed.
Print Assumptions C102_sqrt.
(** The numbers of rounds spoken of are determined. *)
Theorem C102_rounds_unique : forall t d lo hi i i' x x' eps q j j' v v',
  (searched t d lo hi i x -> searched t d lo hi i' x' -> i = i' /\ x = x') /\
  (refined t d eps q j v -> refined t d eps q j' v' -> j = j' /\ v == v').
Proof.
  intros. split; intros H H'; [eapply searched_unique; eauto|eapply refined_unique; eauto; reflexivity].
Qed.
Print Assumptions C102_rounds_unique.

(** [sqrt 2] to three digits: two rounds of halving, then at most 28 (in fact 4) rounds of Newton's formula. *)
Example C102_example : exists v, evaluated Debug (settings 1 1) "sqrt 2" (Ok v) /\
  searched 2 2 0 2 2 1 /\ refined 2 2 (tolerance 10 3) 1 4 v.
Proof.
  eexists. split; [evaluate|]. split.
  - eapply sd_lower; [reflexivity|reflexivity|reflexivity|]. eapply sd_upper; [reflexivity|reflexivity|vm_compute; discriminate|]. apply sd_found. discriminate.
  - eapply (rf_more _ _ _ 1 (3 # 2)); [discriminate|reflexivity|reflexivity|].
    eapply (rf_more _ _ _ _ (17 # 12)); [discriminate|reflexivity|reflexivity|].
    eapply (rf_more _ _ _ _ (577 # 408)); [discriminate|reflexivity|reflexivity|].
    apply rf_last; [discriminate|reflexivity|vm_compute; discriminate].
Qed.
(** its hypotheses *)
Example C102_hypotheses : settings_ok (settings 1 1) /\ digits_kept Debug (settings 1 1) = Some 3%N /\ env_ok memory /\
  fraction (1 # 2) 1 2 /\ Qabs (2 ^ 1) <= inject_Z (2 ^ Z.of_nat 1) /\ (a_radix (settings 1 1) <= 2 ^ 4)%N.
Proof.
  split; [repeat split; reflexivity || discriminate|]. split; [reflexivity|]. split.
  { split; [|discriminate]. intros m x v H. injection H as <-. cbn. destruct (str_eqb _ _); [intros H; injection H as <-; reflexivity|discriminate]. }
  split; [repeat split; reflexivity|]. split; vm_compute; discriminate.
Qed.
