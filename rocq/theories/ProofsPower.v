(** ProofsPower.v -- [exponentiate] (src/operations.rs:76-191) against SpecEval. *)
From Verif Require Import Base Position Num TokenTypes Errors Operations SavedData Variables SyntaxTree.
From Verif Require Import SpecEval ProofsNum ProofsRoot ProofsRoot2.
From Coq Require Import Qabs Qpower Lqa.
Local Open Scope Q_scope.

(** the part of [exponentiate] after the case of degree 1 *)
Definition root_part {E} (t : Q) (degree : N) (eps : Q) : outcome E Q :=
  let '(lower, upper) :=
    if ratio_is_negative t then (ratio_to_integer t, 0%Z) else (0%Z, ratio_to_integer t) in
  guess <- bisect t degree lower upper ;;
  if ratio_is_zero (f_magnitude t degree guess) then Ok (ratio_int guess)
  else newton t degree eps (ratio_int guess).

Lemma F_zero t d x : F t d x == 0 <-> pw (inject_Z x) d == t.
Proof.
  unfold F. split; intros H.
  - assert (pw (inject_Z x) d - t == 0); [|lra].
    revert H. apply Qabs_case; intros; lra.
  - rewrite H. setoid_replace (t - t) with 0 by ring. reflexivity.
Qed.
Lemma F_nonneg t d x : 0 <= F t d x.
Proof. apply Qabs_nonneg. Qed.

Lemma magnitude_zero t degree x : ratio_is_zero (f_magnitude t degree x) = true <-> pw (inject_Z x) (N.to_nat degree) == t.
Proof.
  unfold ratio_is_zero. rewrite num_zero, f_magnitude_spec. apply F_zero.
Qed.

Section Root.
  Context {E : Type} (t : Q) (degree : N) (eps : Q).
  Context (Hd : (2 <= degree)%N) (Hor : 0 <= t \/ N.odd degree = true) (Heps : Qnum eps = 1%Z).
  Let d := N.to_nat degree.
  Lemma d_S : d = S (d - 1).
  Proof. unfold d. lia. Qed.

  Lemma root_part_guess : exists x lo hi, search_interval t = (lo, hi) /\
    root_part (E := E) t degree eps =
      (if ratio_is_zero (f_magnitude t degree x) then Ok (ratio_int x)
       else newton t degree eps (ratio_int x)) /\
    (lo <= x <= hi)%Z /\ forall y, (lo <= y <= hi)%Z -> F t d x <= F t d y.
  Proof.
    pose proof (search_best (E := E) t degree Hd Hor) as H.
    unfold root_part. fold (search_interval t). destruct (search_interval t) as [lo hi].
    destruct H as (x & Hx & Hin & Hbest). exists x, lo, hi. rewrite Hx. cbn [bind]. auto.
  Qed.

  Lemma root_part_exact k : (0 <= k)%Z \/ N.odd degree = true -> pw (inject_Z k) d == t ->
    root_part (E := E) t degree eps = Ok (ratio_int k).
  Proof.
    intros Hk Ek. destruct root_part_guess as (x & lo & hi & Hs & -> & Hin & Hbest).
    assert (Hk' : (lo <= k <= hi)%Z).
    { pose proof (root_in_interval t (d - 1) k) as R. rewrite <- d_S in R. rewrite Hs in R. apply R; [|exact Ek].
      destruct Hk as [?|Ho]; [right; assumption|left; apply odd_to_nat; exact Ho]. }
    assert (Fx : F t d x == 0).
    { pose proof (Hbest k Hk') as B. apply F_zero in Ek. rewrite Ek in B. pose proof (F_nonneg t d x). lra. }
    apply F_zero in Fx. pose proof Fx as Fx'. apply magnitude_zero in Fx'. rewrite Fx'.
    assert (x = k); [|subst; reflexivity].
    assert (Mono : forall a b, (lo <= a)%Z -> (a < b)%Z -> (b <= hi)%Z -> pw (inject_Z a) d < pw (inject_Z b) d).
    { unfold search_interval in Hs. rewrite d_S. intros a b Ha Hab Hb. destruct (ratio_is_negative t) eqn:Hn; injection Hs as <- <-.
      - apply pw_mono_odd; auto. rewrite <- d_S. apply odd_to_nat.
        destruct Hor as [H0|H0]; [apply num_negative in Hn; lra|exact H0].
      - apply pw_mono_nonneg; auto. }
    destruct (Z.lt_trichotomy x k) as [L|[L|L]]; [|exact L|].
    - pose proof (Mono x k ltac:(lia) L ltac:(lia)). lra.
    - pose proof (Mono k x ltac:(lia) L ltac:(lia)). lra.
  Qed.

  Lemma root_part_small : ~ t == 0 -> Qabs t < 1 -> root_part (E := E) t degree eps = Panic DivideByZero.
  Proof.
    intros Ht Hs. destruct root_part_guess as (x & lo & hi & Hi & -> & Hin & _).
    assert (x = 0%Z).
    { unfold search_interval in Hi. destruct (ratio_is_negative t) eqn:Hn; injection Hi as <- <-.
      - apply num_negative in Hn. rewrite Qabs_neg in Hs by lra.
        pose proof (to_integer_nonneg (- t) ltac:(lra)) as (A & B & _). rewrite to_integer_opp in A, B.
        assert (inject_Z (- ratio_to_integer t) < inject_Z 1) by (change (inject_Z 1) with 1; lra).
        rewrite <- Zlt_Qlt in H. lia.
      - apply num_nonneg in Hn. rewrite Qabs_pos in Hs by lra.
        pose proof (to_integer_nonneg t Hn) as (A & B & _).
        assert (inject_Z (ratio_to_integer t) < inject_Z 1) by (change (inject_Z 1) with 1; lra).
        rewrite <- Zlt_Qlt in H. lia. }
    subst x. destruct (ratio_is_zero (f_magnitude t degree 0)) eqn:Z0.
    - apply magnitude_zero in Z0. fold d in Z0. rewrite d_S, pw_S in Z0. change (inject_Z 0) with 0 in Z0. lra.
    - apply newton_zero; [exact Hd|reflexivity].
  Qed.

  Lemma F_at_zero : F t d 0 == Qabs t.
  Proof.
    unfold F. rewrite d_S, pw_S. change (inject_Z 0) with 0.
    setoid_replace (0 * pw 0 (d - 1) - t) with (- t) by ring. apply Qabs_opp.
  Qed.
  Lemma pw_one n : pw 1 n == 1.
  Proof. unfold pw. apply Qpower_1. Qed.

  (** positive radicand, at least 1 *)
  Lemma root_part_large_pos : 1 <= t -> (forall k, ~ pw (inject_Z k) d == t) ->
    exists y x0, root_part (E := E) t degree eps = Ok y /\ 0 < x0 /\ last_step t degree eps x0 y.
  Proof.
    intros Ht Hno. destruct root_part_guess as (x & lo & hi & Hi & -> & Hin & Hbest).
    unfold search_interval in Hi. destruct (ratio_is_negative t) eqn:Hn; injection Hi as <- <-.
    { apply num_negative in Hn. lra. }
    destruct (ratio_is_zero (f_magnitude t degree x)) eqn:Z0.
    { apply magnitude_zero in Z0. exfalso. apply (Hno x). exact Z0. }
    assert (Hx : x <> 0%Z).
    { intros ->. pose proof (floor_bound 1 t ltac:(lra) Ht). specialize (Hbest 1%Z ltac:(lia)).
      rewrite F_at_zero in Hbest. unfold F in Hbest. change (inject_Z 1) with 1 in Hbest. rewrite pw_one in Hbest.
      rewrite Qabs_pos, Qabs_neg in Hbest by lra. lra. }
    destruct (newton_pos (E := E) t degree eps ltac:(lra) Hd Heps (ratio_int x)) as (y & Hy & Hl).
    { unfold ratio_int, Qlt; simpl. lia. }
    exists y, (ratio_int x). split; [exact Hy|]. split; [unfold ratio_int, Qlt; simpl; lia|exact Hl].
  Qed.
  Lemma root_part_large_neg : t <= -1 -> (forall k, ~ pw (inject_Z k) d == t) ->
    exists y x0, root_part (E := E) t degree eps = Ok (- y) /\ 0 < x0 /\ last_step (- t) degree eps x0 y.
  Proof.
    intros Ht Hno. destruct root_part_guess as (x & lo & hi & Hi & -> & Hin & Hbest).
    assert (Ho : N.odd degree = true) by (destruct Hor as [?|Ho]; [lra|exact Ho]).
    assert (Hod : Nat.odd d = true) by (apply odd_to_nat; exact Ho).
    unfold search_interval in Hi. destruct (ratio_is_negative t) eqn:Hn; injection Hi as <- <-.
    2: { apply num_nonneg in Hn. lra. }
    destruct (ratio_is_zero (f_magnitude t degree x)) eqn:Z0.
    { apply magnitude_zero in Z0. exfalso. apply (Hno x). exact Z0. }
    assert (Hx : x <> 0%Z).
    { intros ->. pose proof (floor_bound 1 (- t) ltac:(lra)) as B. rewrite to_integer_opp in B.
      specialize (B ltac:(change (inject_Z 1) with 1; lra)). specialize (Hbest (-1)%Z ltac:(lia)).
      rewrite F_at_zero in Hbest. unfold F in Hbest. change (inject_Z (-1)) with (- (1)) in Hbest.
      rewrite pw_neg_odd in Hbest by exact Hod. rewrite pw_one in Hbest.
      rewrite Qabs_neg, Qabs_pos in Hbest by lra. lra. }
    destruct (newton_pos (E := E) (- t) degree eps ltac:(lra) Hd Heps (ratio_int (- x))) as (y & Hy & Hl).
    { unfold ratio_int, Qlt; simpl. lia. }
    exists y, (ratio_int (- x)). split; [|split; [unfold ratio_int, Qlt; simpl; lia|exact Hl]].
    assert (O : newton (E := E) (- (- t)) degree eps (- ratio_int (- x)) = omap_opp (newton (- t) degree eps (ratio_int (- x))))
      by (apply newton_opp; assumption).
    rewrite Hy in O. cbn [omap_opp] in O. rewrite <- O. f_equal.
    - destruct t as [a b]. unfold Qopp; simpl. rewrite Z.opp_involutive. reflexivity.
    - unfold ratio_int, Qopp; simpl. rewrite Z.opp_involutive. reflexivity.
  Qed.
End Root.

(** * [exponentiate] *)

Lemma ratio_new_eps {E} radix P1 : (1 <= radix)%N ->
  exists eps, ratio_new (E := E) 1 (Z.pow (Z.of_N radix) (Z.of_N P1)) = Ok eps /\ Qnum eps = 1%Z /\
    Zpos (Qden eps) = Z.pow (Z.of_N radix) (Z.of_N P1).
Proof.
  intros Hr. assert (0 < Z.of_N radix ^ Z.of_N P1)%Z by (apply Z.pow_pos_nonneg; lia).
  destruct (Z.of_N radix ^ Z.of_N P1)%Z as [|q|q]; try lia. cbn [ratio_new].
  exists (1 # q). assert (Qred (1 # q) = 1 # q).
  { apply canon_gcd. cbn [Qnum Qden]. apply Z.gcd_1_l. }
  rewrite H0. auto.
Qed.

(** the radicand [base ^ (numerator of the exponent)] *)
Lemma radicand_ok {E} base exponent : canon base -> power_exists base (Qnum exponent) ->
  exists b, (if ratio_is_negative exponent then ratio_inv (E := E) base else Ok base) = Ok b /\
    canon (ratio_pow b (Z.abs_N (Qnum exponent))) /\
    ratio_pow b (Z.abs_N (Qnum exponent)) == base ^ Qnum exponent.
Proof.
  intros Hc Hex. unfold ratio_is_negative. destruct (Z.ltb_spec (Qnum exponent) 0).
  - destruct Hex as [?|Hnz]; [lia|]. rewrite ratio_inv_ok by exact Hnz. eexists. split; [reflexivity|].
    split; [apply canon_pow, canon_inv, Hc|]. rewrite ratio_pow_spec, Qinv_power, N2Z.inj_abs_N.
    rewrite Z.abs_neq by lia. rewrite Qpower_opp, Qinv_involutive. reflexivity.
  - exists base. split; [reflexivity|]. split; [apply canon_pow, Hc|].
    rewrite ratio_pow_spec, N2Z.inj_abs_N, Z.abs_eq by lia. reflexivity.
Qed.

Lemma exponentiate_eq pr base exponent P radix P1 b eps :
  (if ratio_is_negative exponent then ratio_inv (E := math_error) base else Ok base) = Ok b ->
  u8_add (E := math_error) pr P 1 = Ok P1 ->
  ratio_new (E := math_error) 1 (Z.pow (Z.of_N radix) (Z.of_N P1)) = Ok eps ->
  exponentiate pr base exponent P radix =
    let t := ratio_pow b (Z.abs_N (Qnum exponent)) in
    if N.eqb (Npos (Qden exponent)) 1 then Ok t
    else if ratio_is_negative t && N.even (Npos (Qden exponent)) then Err ImaginaryResult
    else root_part t (Npos (Qden exponent)) eps.
Proof.
  intros H1 H2 H3. unfold exponentiate. rewrite H1. cbn [bind]. rewrite H2. cbn [bind]. rewrite H3. cbn [bind].
  unfold root_part. reflexivity.
Qed.

Lemma pw_Zpos x d : pw x (Pos.to_nat d) == x ^ Zpos d.
Proof. unfold pw. rewrite positive_nat_Z. reflexivity. Qed.
Lemma odd_Npos d : N.odd (Npos d) = Z.odd (Zpos d).
Proof. destruct d; reflexivity. Qed.
Lemma even_Npos d : N.even (Npos d) = Z.even (Zpos d).
Proof. destruct d; reflexivity. Qed.
Lemma even_odd_pos d : Z.even (Zpos d) = negb (Z.odd (Zpos d)).
Proof. destruct d; reflexivity. Qed.

Lemma fraction_canon y n d : canon y -> fraction y n d -> n = Qnum y /\ d = Qden y.
Proof.
  intros Hc (Hy & Hg & _). assert (E : y = n # d).
  { apply canon_inj; [exact Hc|apply canon_gcd; exact Hg|exact Hy]. }
  rewrite E. auto.
Qed.
Lemma canon_fraction y : canon y -> Qden y <> 1%positive -> fraction y (Qnum y) (Qden y).
Proof.
  intros Hc Hd. destruct y as [n d]. split; [reflexivity|]. split; [apply canon_gcd in Hc; exact Hc|].
  simpl in *. lia.
Qed.

Lemma root_between_last t degree eps x0 y : 1 <= t -> (1 < degree)%positive -> Qnum eps = 1%Z -> 0 < x0 ->
  last_step t (Npos degree) eps x0 y ->
  0 < y /\ root_between t degree (y - inject_Z (Zpos degree - 1) * eps) y /\
  (2 * inject_Z (Zpos degree) * eps <= 1 -> root_between t degree (y - eps) y).
Proof.
  intros Ht Hd Heps Hx0 Hl.
  pose proof (last_step_near t (Npos degree) eps ltac:(lia) Heps x0 y Ht Hx0 Hl) as N.
  destruct Hl as (_ & (Py & Ay) & _).
  set (m := (N.to_nat (N.pos degree) - 1)%nat) in *.
  assert (Em : S m = Pos.to_nat degree) by (unfold m; lia).
  assert (E1 : inject_Z (Z.of_nat m) = inject_Z (Zpos degree - 1)) by (f_equal; unfold m; lia).
  assert (E2 : inject_Z (Z.of_nat (S m)) = inject_Z (Zpos degree)) by (f_equal; unfold m; lia).
  rewrite Em, pw_Zpos in Ay.
  split; [exact Py|]. split.
  - split; [|split; [lra|exact Ay]].
    destruct (Qlt_le_dec (y - inject_Z (Zpos degree - 1) * eps) 0) as [L|L]; [left; exact L|right].
    rewrite <- pw_Zpos, <- Em. eapply N; [left; reflexivity|exact L|]. rewrite E1. lra.
  - intros Hs. split; [|split; [lra|exact Ay]].
    destruct (Qlt_le_dec (y - eps) 0) as [L|L]; [left; exact L|right].
    rewrite <- pw_Zpos, <- Em. eapply N; [right; split; [reflexivity|]|exact L|lra].
    rewrite Em, positive_nat_Z. exact Hs.
Qed.

(** an integer root exists or not: decided by the search *)
Lemma root_dec t degree : (2 <= degree)%N -> 0 <= t \/ N.odd degree = true ->
  (exists k, ((0 <= k)%Z \/ N.odd degree = true) /\ pw (inject_Z k) (N.to_nat degree) == t) \/
  (forall k, ~ pw (inject_Z k) (N.to_nat degree) == t).
Proof.
  intros Hd Hor.
  destruct (root_part_guess (E := unit) t degree (1 # 1) Hd Hor) as (x & lo & hi & Hs & _ & Hin & Hbest).
  assert (Dn : N.to_nat degree = S (N.to_nat degree - 1)) by lia.
  destruct (Qeq_dec (pw (inject_Z x) (N.to_nat degree)) t) as [Ex|Nx].
  - left. exists x. split; [|exact Ex]. destruct (N.odd degree) eqn:Ho; [auto|left].
    unfold search_interval in Hs. destruct (ratio_is_negative t) eqn:Hn; injection Hs as <- <-; [|lia].
    apply num_negative in Hn. destruct Hor; [lra|discriminate].
  - right. intros k Hk.
    assert (Hk2 : exists k', (lo <= k' <= hi)%Z /\ pw (inject_Z k') (N.to_nat degree) == t).
    { pose proof (fun c => root_in_interval t (N.to_nat degree - 1) k c) as R. rewrite <- Dn, Hs in R.
      destruct (N.odd degree) eqn:Ho.
      - exists k. split; [|exact Hk]. apply R; [|exact Hk]. left. apply odd_to_nat. exact Ho.
      - destruct (Z_le_gt_dec 0 k) as [L|L].
        + exists k. split; [|exact Hk]. apply R; [|exact Hk]. right. exact L.
        + exists (- k)%Z. assert (Hk' : pw (inject_Z (- k)) (N.to_nat degree) == t).
          { rewrite inject_Z_opp, pw_neg_even; [exact Hk|]. rewrite <- Nat.negb_odd.
            destruct (Nat.odd (N.to_nat degree)) eqn:O; [|reflexivity].
            apply Nat.odd_spec in O as [j O]. assert (N.odd degree = true); [|congruence].
            apply N.odd_spec. exists (N.of_nat j). lia. }
          split; [|exact Hk'].
          pose proof (root_in_interval t (N.to_nat degree - 1) (- k)) as R'. rewrite <- Dn, Hs in R'.
          apply R'; [right; lia|exact Hk']. }
    destruct Hk2 as (k' & Hk' & Ek'). specialize (Hbest k' Hk'). apply F_zero in Ek'. rewrite Ek' in Hbest.
    pose proof (F_nonneg t (N.to_nat degree) x). assert (F0 : F t (N.to_nat degree) x == 0) by lra.
    apply F_zero in F0. contradiction.
Qed.

(** The precision settings can be used without overflow. *)
Definition map_math (p : position) (o : outcome math_error Q) : outcome failure Q :=
  map_err (fun e => fail_math e p) o.

Lemma exponentiate_spec pr p base exponent P radix P1 eps :
  canon base -> canon exponent -> (1 <= radix)%N -> u8_add (E := math_error) pr P 1 = Ok P1 ->
  ratio_new (E := math_error) 1 (Z.pow (Z.of_N radix) (Z.of_N P1)) = Ok eps ->
  power_result eps p base exponent (result_of (map_math p (exponentiate pr base exponent P radix))) /\
  match exponentiate pr base exponent P radix with Ok v => canon v | Err _ => True | Panic q => q = DivideByZero end.
Proof.
  intros Hb He Hr HP Heps.
  assert (He1 : Qnum eps = 1%Z).
  { destruct (ratio_new_eps (E := math_error) radix P1 Hr) as (e' & Ee & N1 & _). congruence. }
  assert (Hcase : (base == 0 /\ exponent < 0) \/ power_exists base (Qnum exponent)).
  { destruct (Qlt_le_dec exponent 0) as [Hneg|Hpos].
    - destruct (Qeq_dec base 0) as [Hz|Hz]; [left; auto|right; right; exact Hz].
    - right; left. destruct exponent as [a b]. unfold Qle in Hpos. simpl in *. lia. }
  destruct Hcase as [[Hz Hneg]|Hex].
  { (* zero to a negative power *)
    assert (X : exponentiate pr base exponent P radix = Panic DivideByZero).
    { unfold exponentiate. apply num_negative in Hneg. rewrite Hneg. unfold ratio_inv. apply num_zero in Hz. rewrite Hz. reflexivity. }
    rewrite X. split; [|reflexivity]. left. apply pe_zero_inverse; assumption. }
  destruct (radicand_ok (E := math_error) base exponent Hb Hex) as (b & Eb & Ct & Et).
  rewrite (exponentiate_eq pr base exponent P radix P1 b eps Eb HP Heps). cbn zeta.
  set (t := ratio_pow b (Z.abs_N (Qnum exponent))) in *.
  destruct (N.eqb_spec (Npos (Qden exponent)) 1) as [D1|D1].
  { (* integer exponent *)
    cbn [map_math map_err result_of]. split; [|exact Ct].
    left. apply (pe_integer _ _ _ (Qnum exponent)); [|exact Hex|exact Et].
    destruct exponent as [a q]. simpl in *. injection D1 as ->. reflexivity. }
  assert (Hfr : fraction exponent (Qnum exponent) (Qden exponent)) by (apply canon_fraction; [exact He|congruence]).
  assert (Hdeg : (2 <= Npos (Qden exponent))%N) by lia.
  destruct (ratio_is_negative t && N.even (Npos (Qden exponent))) eqn:Him.
  { (* imaginary *)
    apply andb_true_iff in Him as [Hn Hev]. apply num_negative in Hn. rewrite Et in Hn.
    split; [|exact I]. left. apply (pe_imaginary _ _ _ (Qnum exponent) (Qden exponent)); auto. }
  assert (Hor : 0 <= t \/ N.odd (Npos (Qden exponent)) = true).
  { apply andb_false_iff in Him as [Hn|Hn]; [left; apply num_nonneg; exact Hn|right].
    rewrite <- N.negb_odd in Hn. destruct (N.odd (Npos (Qden exponent))); [reflexivity|discriminate]. }
  destruct (root_dec t (Npos (Qden exponent)) Hdeg Hor) as [(k & Hk & Ek)|Hno].
  { (* exact root *)
    rewrite (root_part_exact t _ eps Hdeg Hor k Hk Ek). split; [|apply canon_int].
    left. apply (pe_root _ _ _ (Qnum exponent) (Qden exponent) k); auto.
    - rewrite <- Et, <- Ek. symmetry. simpl N.to_nat. apply pw_Zpos.
    - rewrite <- odd_Npos. exact Hk.
    - reflexivity. }
  assert (Hno' : forall k, ~ inject_Z k ^ Zpos (Qden exponent) == base ^ Qnum exponent).
  { intros k Hk. apply (Hno k). rewrite Et. simpl N.to_nat. rewrite pw_Zpos. exact Hk. }
  assert (Htz : ~ t == 0).
  { intros H0. apply (Hno 0%Z). rewrite H0. simpl N.to_nat. rewrite pw_Zpos. change (inject_Z 0) with 0. apply Qpower_0. lia. }
  assert (Hor' : 0 < base ^ Qnum exponent \/ Z.odd (Zpos (Qden exponent)) = true).
  { destruct Hor as [H0|H0].
    - left. rewrite <- Et. destruct (Qlt_le_dec 0 t); [assumption|exfalso; apply Htz; lra].
    - right. rewrite <- odd_Npos. exact H0. }
  destruct (Qlt_le_dec (Qabs t) 1) as [Hs|Hl].
  { (* too small *)
    rewrite (root_part_small t _ eps Hdeg Hor Htz Hs). split; [|reflexivity].
    left. apply (pe_small _ _ _ (Qnum exponent) (Qden exponent)); auto.
    - intros H0. apply Htz. rewrite Et. destruct (Z.eq_dec (Qnum exponent) 0) as [Hn0|Hn0].
      + exfalso. destruct Hfr as (_ & Hg & Hd1). rewrite Hn0 in Hg. simpl in Hg. lia.
      + rewrite H0. apply Qpower_0. exact Hn0.
    - rewrite <- Et. exact Hs. }
  assert (D1' : (1 < Qden exponent)%positive) by lia.
  destruct (Qlt_le_dec 0 t) as [Htp|Htn].
  - rewrite (Qabs_pos t) in Hl by lra.
    destruct (root_part_large_pos (E := math_error) t _ eps Hdeg Hor He1 Hl Hno) as (y & x0 & -> & Hx0 & Hls).
    split; [|destruct Hls as (Cy & _); exact Cy].
    destruct (root_between_last t (Qden exponent) eps x0 y Hl D1' He1 Hx0 Hls) as (Py & R1 & R2).
    right. exists y. split; [reflexivity|]. exists (Qnum exponent), (Qden exponent).
    assert (A : Qabs (base ^ Qnum exponent) == t) by (rewrite <- Et; apply Qabs_pos; lra).
    assert (B : Qabs y == y) by (apply Qabs_pos; lra).
    split; [exact Hfr|]. split; [rewrite A; exact Hl|]. split; [exact Hor'|]. split; [exact Hno'|].
    split; [rewrite Et in Htp; tauto|].
    split; [unfold root_between; rewrite A, B; exact R1|].
    intros Hs; unfold root_between; rewrite A, B; apply R2; exact Hs.
  - assert (Hl' : 1 <= - t) by (rewrite (Qabs_neg t) in Hl by lra; exact Hl).
    destruct (root_part_large_neg (E := math_error) t _ eps Hdeg Hor He1 ltac:(lra) Hno) as (y & x0 & -> & Hx0 & Hls).
    split; [|destruct Hls as (Cy & _); apply canon_opp; exact Cy].
    destruct (root_between_last (- t) (Qden exponent) eps x0 y Hl' D1' He1 Hx0 Hls) as (Py & R1 & R2).
    right. exists (- y). split; [reflexivity|]. exists (Qnum exponent), (Qden exponent).
    assert (A : Qabs (base ^ Qnum exponent) == - t) by (rewrite <- Et; apply Qabs_neg; lra).
    assert (B : Qabs (- y) == y) by (rewrite Qabs_opp; apply Qabs_pos; lra).
    split; [exact Hfr|]. split; [rewrite A; exact Hl'|]. split; [exact Hor'|]. split; [exact Hno'|].
    split; [rewrite Et in Htn; split; lra|].
    split; [unfold root_between; rewrite A, B; exact R1|].
    intros Hs; unfold root_between; rewrite A, B; apply R2; exact Hs.
Qed.
