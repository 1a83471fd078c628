(** ProofsPrint.v -- proofs about make_decimal_string. *)
From Verif Require Import Base Position TokenTypes Errors Num SpecLex ProofsLex ProofsText ProofsNum Operations SpecPrint.
From Coq Require Import String Qabs Lqa.
Local Open Scope nat_scope.
Local Open Scope list_scope.

Lemma spell_app u a b : spell u (a ++ b) = spell u a ++ spell u b.
Proof. apply map_app. Qed.
Lemma spell_length u a : List.length (spell u a) = List.length a.
Proof. apply map_length. Qed.

Definition up (u : bool) (s : str) : str := if u then map to_ascii_uppercase s else s.
Lemma spell_digits u radix ds : (radix <= 16)%N -> Forall (fun d => (d < radix)%N) ds ->
  up u (map digit_char ds) = spell u ds.
Proof.
  intros Hr H. induction H as [|d ds Hd _ IH]; [destruct u; reflexivity|].
  assert (E : In d (map N.of_nat (seq 0 16))).
  { apply in_map_iff. exists (N.to_nat d). split; [lia|]. apply in_seq. lia. }
  destruct u; cbn [up map spell] in *; f_equal; try exact IH; clear IH;
    simpl in E; repeat (destruct E as [<-|E]; [reflexivity|]); destruct E.
Qed.

Lemma spell_zero (u : bool) d : (d < 16)%N -> N.eqb (nth (N.to_nat d) (if u then lit "0123456789ABCDEF" else lit "0123456789abcdef") 63%N) c_zero = N.eqb d 0.
Proof.
  intros Hd. assert (E : In d (map N.of_nat (seq 0 16))).
  { apply in_map_iff. exists (N.to_nat d). split; [lia|]. apply in_seq. lia. }
  destruct u; simpl in E; repeat (destruct E as [<-|E]; [reflexivity|]); destruct E.
Qed.

Lemma drop_zeros_spell u : forall ds, Forall (fun d => (d < 16)%N) ds ->
  exists k ds', ds = repeat 0%N k ++ ds' /\ drop_zeros (spell u ds) = spell u ds' /\
    (forall d r, ds' = d :: r -> d <> 0%N).
Proof.
  induction 1 as [|d ds Hd _ (k & ds' & E & D & Z)].
  - exists 0%nat, []. repeat split. discriminate.
  - cbn [spell map drop_zeros]. rewrite spell_zero by exact Hd. destruct (N.eqb_spec d 0) as [->|Hn].
    + exists (S k), ds'. cbn [repeat app]. split; [congruence|]. split; [exact D|exact Z].
    + exists 0%nat, (d :: ds). split; [reflexivity|]. split; [reflexivity|]. intros ? ? [= <- <-]. exact Hn.
Qed.
Lemma trim_end_spell u ds : Forall (fun d => (d < 16)%N) ds ->
  exists k ds', ds = ds' ++ repeat 0%N k /\ trim_end_zeros (spell u ds) = spell u ds' /\
    (forall r d, ds' = r ++ [d] -> d <> 0%N).
Proof.
  intros H. apply Forall_rev in H. destruct (drop_zeros_spell u _ H) as (k & ds' & E & D & Z).
  exists k, (rev ds'). split.
  { rewrite <- (rev_involutive ds), E, rev_app_distr. f_equal. clear. induction k as [|k IH]; [reflexivity|].
    cbn [repeat rev]. rewrite IH. symmetry. apply repeat_cons. }
  split.
  - unfold trim_end_zeros. unfold spell in *. rewrite <- map_rev, D, map_rev. reflexivity.
  - intros r d Er. apply (Z d (rev r)). rewrite <- (rev_involutive ds'), Er, rev_app_distr. reflexivity.
Qed.

(** positional values *)
Lemma int_value_repeat0 radix k ds : int_value radix (repeat 0%N k ++ ds) = int_value radix ds.
Proof. induction k as [|k IH]; [reflexivity|]. cbn [repeat app int_value]. rewrite IH. lia. Qed.
Lemma int_value_bounds radix ds : (2 <= radix)%N -> Forall (fun d => (d < radix)%N) ds ->
  (0 <= int_value radix ds < Z.of_N radix ^ Z.of_nat (List.length ds))%Z.
Proof.
  intros Hr H. induction H as [|d ds Hd _ IH]; [simpl; lia|]. cbn [int_value List.length].
  rewrite Nat2Z.inj_succ, Z.pow_succ_r by lia.
  set (P := (Z.of_N radix ^ Z.of_nat (List.length ds))%Z) in *. nia.
Qed.
Lemma frac_value_int radix ds : (2 <= radix)%N ->
  (frac_value radix ds * inject_Z (Z.of_N radix ^ Z.of_nat (List.length ds)) == inject_Z (int_value radix ds))%Q.
Proof.
  intros Hr. induction ds as [|d ds IH]; [reflexivity|]. cbn [int_value frac_value List.length].
  rewrite Nat2Z.inj_succ, Z.pow_succ_r by lia. rewrite inject_Z_plus, !inject_Z_mult, <- IH.
  assert (~ inject_Z (Z.of_N radix) == 0)%Q by (unfold Qeq; simpl; lia).
  field. assumption.
Qed.
Lemma frac_value_app0 radix ds k : (2 <= radix)%N -> (frac_value radix (ds ++ repeat 0%N k) == frac_value radix ds)%Q.
Proof.
  intros Hr. induction ds as [|d ds IH]; cbn [app].
  - induction k as [|k IH]; [reflexivity|]. cbn [repeat frac_value] in *. rewrite IH. reflexivity.
  - cbn [frac_value]. rewrite IH. reflexivity.
Qed.

(** the digits of a natural number padded to a given width *)
Lemma padded_digits n radix w : (2 <= radix)%N -> (Z.of_N n < Z.of_N radix ^ Z.of_nat w)%Z -> (1 <= w)%nat ->
  exists ds, pad_left_zero (biguint_to_str n radix) w = map digit_char ds /\ List.length ds = w /\
    Forall (fun d => (d < radix)%N) ds /\ int_value radix ds = Z.of_N n.
Proof.
  intros Hr Hn Hw. destruct (biguint_to_str_spec n radix Hr) as (ds & E & Hne & Hf & Hv & Hz).
  assert (L : (List.length ds <= w)%nat).
  { destruct ds as [|d ds]; [contradiction|]. destruct (N.eq_dec d 0) as [->|Hd].
    - destruct (Hz 0%N ds eq_refl eq_refl) as [-> _]. exact Hw.
    - inversion Hf as [|? ? Hd' Hf']; subst. pose proof (int_value_bounds radix ds Hr Hf') as B. cbn [int_value List.length] in *.
      destruct (le_lt_dec (S (List.length ds)) w) as [|C]; [assumption|exfalso].
      assert (Z.of_N radix ^ Z.of_nat w <= Z.of_N radix ^ Z.of_nat (List.length ds))%Z by (apply Z.pow_le_mono_r; lia).
      assert (0 < Z.of_N radix ^ Z.of_nat (List.length ds))%Z by (apply Z.pow_pos_nonneg; lia).
      nia. }
  exists (repeat 0%N (w - List.length ds) ++ ds). unfold pad_left_zero. rewrite E, map_length, map_app.
  split; [f_equal; generalize (w - List.length ds) as k; induction k; [reflexivity|]; cbn [repeat map]; rewrite IHk; reflexivity|].
  split; [rewrite app_length, repeat_length; lia|].
  split; [apply Forall_app; split; [|exact Hf]|rewrite int_value_repeat0; exact Hv].
  generalize (w - List.length ds) as k. induction k; constructor; [lia|assumption].
Qed.

(** rounding *)
Lemma ratio_round_spec q : (0 <= q)%Q ->
  (0 <= ratio_round q)%Z /\ (inject_Z (ratio_round q) <= q + (1 # 2))%Q /\ (q < inject_Z (ratio_round q) + (1 # 2))%Q.
Proof.
  destruct q as [n d]. unfold Qle, ratio_round, ratio_to_integer; cbn [Qnum Qden]. rewrite Z.mul_1_r, Z.mul_0_l. intros H.
  rewrite Z.rem_mod_nonneg, Z.quot_div_nonneg by lia.
  pose proof (Z.div_mod n (Zpos d) ltac:(lia)) as D. pose proof (Z.mod_pos_bound n (Zpos d) ltac:(lia)) as B.
  pose proof (Z.div_pos n (Zpos d) H ltac:(lia)) as P.
  rewrite Z.abs_eq by lia. destruct (Z.leb_spec 0 n); [|lia].
  set (r := (n mod Zpos d)%Z) in *. set (t := (n / Zpos d)%Z) in *.
  assert (W : forall (b : bool), (b = true <-> (Zpos d <= 2 * r)%Z) ->
    (0 <= (if b then t + 1 else t))%Z /\
    (inject_Z (if b then t + 1 else t) <= (n # d) + (1 # 2))%Q /\ ((n # d) < inject_Z (if b then t + 1 else t) + (1 # 2))%Q).
  { intros b Hb. unfold Qle, Qlt. destruct b; simpl.
    - assert ((Zpos d <= 2 * r)%Z) by (apply Hb; reflexivity). split; [lia|]. nia.
    - assert (~ (Zpos d <= 2 * r)%Z) by (intros C; apply Hb in C; discriminate). split; [lia|]. nia. }
  apply W. clear W. pose proof (Z.div_mod (Zpos d) 2 ltac:(lia)) as D2.
  assert (E : (Zpos d mod 2 = if Z.even (Zpos d) then 0 else 1)%Z) by (rewrite Zmod_even; reflexivity).
  rewrite E in D2. destruct (Z.even (Zpos d)); rewrite Z.leb_le; lia.
Qed.

Lemma canon_integer q : canon q -> (ratio_is_integer q = true <-> exists m, (q == inject_Z m)%Q).
Proof.
  intros C. unfold ratio_is_integer. rewrite Pos.eqb_eq. split.
  - intros E. exists (Qnum q). destruct q as [n d]; simpl in *. subst. reflexivity.
  - intros [m E]. assert (E' : q = inject_Z m) by (apply canon_inj; [exact C|apply canon_int|exact E]).
    rewrite E'. reflexivity.
Qed.

Lemma up_length u s : List.length (up u s) = List.length s.
Proof. destruct u; [apply map_length|reflexivity]. Qed.

(** what the printing code computes, before the commas *)
Lemma make_decimal_shape {E} v radix p upper : (2 <= radix <= 16)%N ->
  exists ids fds,
    let P := (Z.of_N radix ^ Z.of_N p)%Z in
    let rounded := ratio_round (ratio_abs (ratio_mul v (ratio_int P))) in
    (forall commas, make_decimal_string (E := E) v radix p commas upper =
      Ok ((if ratio_lt v (ratio_int 0) then lit "-" else []) ++
          (if commas then insert_commas (spell upper ids) else spell upper ids) ++
          match fds with [] => [] | _ => lit "." ++ spell upper fds end)) /\
    Forall (fun d => (d < radix)%N) (ids ++ fds) /\ ids <> [] /\ (forall ds, ids = 0%N :: ds -> ds = []) /\
    ((inject_Z (int_value radix ids) + frac_value radix fds) * inject_Z P == inject_Z rounded)%Q /\
    (List.length fds <= N.to_nat p)%nat /\
    (if ratio_is_integer (ratio_abs (ratio_mul v (ratio_int P)))
     then forall r d, fds = r ++ [d] -> d <> 0%N else List.length fds = N.to_nat p).
Proof.
  intros Hr. set (P := (Z.of_N radix ^ Z.of_N p)%Z). set (mu := ratio_abs (ratio_mul v (ratio_int P))).
  assert (HP : (0 < P)%Z) by (apply Z.pow_pos_nonneg; lia).
  assert (Hmu : (0 <= mu)%Q) by apply Qabs_nonneg.
  destruct (ratio_round_spec mu Hmu) as (R0 & _ & _). set (m := ratio_round mu) in *.
  assert (Hq : Z.quot m P = (m / P)%Z) by (apply Z.quot_div_nonneg; lia).
  assert (Hm : Z.rem m P = (m mod P)%Z) by (apply Z.rem_mod_nonneg; lia).
  pose proof (Z.div_pos m P R0 HP) as Hq0. pose proof (Z.mod_pos_bound m P HP) as Hm0.
  pose proof (Z.div_mod m P ltac:(lia)) as Hdm.
  assert (Ho : radix_ok radix = true) by (apply radix_ok_spec; lia).
  assert (Hto : forall E z, (0 <= z)%Z -> to_str_radix (E := E) z radix = Ok (biguint_to_str (Z.abs_N z) radix)).
  { intros E0 z Hz. unfold to_str_radix. rewrite Ho. destruct (Z.ltb_spec z 0); [lia|reflexivity]. }
  destruct (biguint_to_str_spec (Z.abs_N (m / P)) radix ltac:(lia)) as (ids & Ei & Hine & Hif & Hiv & Hiz).
  (* the fractional part *)
  assert (HF : exists fds,
    (if N.eqb p 0 then Ok (E := E) []
     else digits <- to_str_radix (Z.rem m P) radix ;;
          (let fs := pad_left_zero digits (N.to_nat p) in
           let fs := if upper then map to_ascii_uppercase fs else fs in
           Ok (if ratio_is_integer mu then trim_end_zeros fs else fs))) = Ok (spell upper fds) /\
    Forall (fun d => (d < radix)%N) fds /\ (frac_value radix fds * inject_Z P == inject_Z (m mod P))%Q /\
    (List.length fds <= N.to_nat p)%nat /\
    (if ratio_is_integer mu then forall r d, fds = r ++ [d] -> d <> 0%N else List.length fds = N.to_nat p)).
  { destruct (N.eqb_spec p 0) as [Hp|Hp].
    - exists []. split; [reflexivity|]. split; [constructor|]. split.
      { assert (P = 1%Z) by (unfold P; rewrite Hp; reflexivity). rewrite H, Z.mod_1_r. reflexivity. }
      split; [simpl; lia|]. destruct (ratio_is_integer mu); [|simpl; lia]. intros r d Er. destruct r; discriminate.
    - rewrite Hm, Hto by lia. cbn [bind].
      destruct (padded_digits (Z.abs_N (m mod P)) radix (N.to_nat p) ltac:(lia)) as (ds & Ed & Ld & Fd & Vd).
      { rewrite N2Z.inj_abs_N, Z.abs_eq by lia. replace (Z.of_nat (N.to_nat p)) with (Z.of_N p) by lia. fold P. lia. }
      { lia. }
      rewrite Ed. cbv zeta. change (if upper then map to_ascii_uppercase (map digit_char ds) else map digit_char ds) with (up upper (map digit_char ds)).
      rewrite (spell_digits upper radix ds) by (try lia; exact Fd).
      rewrite N2Z.inj_abs_N, Z.abs_eq in Vd by lia.
      assert (V : (frac_value radix ds * inject_Z P == inject_Z (m mod P))%Q).
      { rewrite <- Vd. rewrite <- (frac_value_int radix ds) by lia. rewrite Ld. replace (Z.of_nat (N.to_nat p)) with (Z.of_N p) by lia. reflexivity. }
      destruct (ratio_is_integer mu).
      + assert (F16 : Forall (fun d => (d < 16)%N) ds) by (eapply Forall_impl; [|exact Fd]; intros; simpl in *; lia).
        destruct (trim_end_spell upper ds F16) as (k & ds' & E1 & E2 & E3).
        exists ds'. rewrite E2. split; [reflexivity|]. rewrite E1 in Fd, V, Ld. apply Forall_app in Fd as [Fd _].
        split; [exact Fd|]. split; [rewrite <- V, (frac_value_app0 radix ds' k) by lia; reflexivity|].
        split; [rewrite app_length in Ld; lia|exact E3].
      + exists ds. repeat split; auto; lia. }
  destruct HF as (fds & EF & FF & VF & LF & TF).
  exists ids, fds. cbv zeta. fold P. fold mu. fold m.
  split.
  { intros commas. unfold make_decimal_string. cbv zeta. fold P. fold mu. fold m.
  cbv zeta in EF. rewrite EF. cbn [bind]. rewrite Hq, Hto by lia. cbn [bind].
  rewrite Ei. change (if upper then map to_ascii_uppercase (map digit_char ids) else map digit_char ids) with (up upper (map digit_char ids)).
  rewrite (spell_digits upper radix ids) by (try lia; exact Hif).
    f_equal. destruct fds as [|d fds]; cbn [spell map].
    - rewrite app_nil_r. reflexivity.
    - reflexivity. }
  split; [apply Forall_app; split; assumption|]. split; [exact Hine|].
  split.
  { intros ds Ed. destruct (Hiz 0%N ds Ed eq_refl) as [-> _]. reflexivity. }
  split; [|split; assumption].
  rewrite Hiv, N2Z.inj_abs_N, Z.abs_eq by lia. rewrite Qmult_plus_distr_l, VF, <- inject_Z_mult, <- inject_Z_plus. f_equiv. lia.
Qed.

Lemma inject_lt_succ a b : (a < b)%Z -> (inject_Z a + 1 <= inject_Z b)%Q.
Proof. intros H. unfold Qle. simpl. lia. Qed.
Lemma inject_nonneg a : (0 <= a)%Z -> (0 <= inject_Z a)%Q.
Proof. intros H. unfold Qle. simpl. lia. Qed.

Lemma nearest_int m k mu : (0 <= mu)%Q -> (0 <= m)%Z ->
  (inject_Z m <= mu + (1 # 2))%Q -> (mu < inject_Z m + (1 # 2))%Q ->
  (Qabs (inject_Z m - mu) <= Qabs (inject_Z k - mu))%Q /\
  (Qabs (inject_Z k - mu) == Qabs (inject_Z m - mu) -> Qabs (inject_Z k) <= inject_Z m)%Q.
Proof.
  intros Hmu Hm0 H1 H2. apply inject_nonneg in Hm0.
  assert (T : (inject_Z m + 1 <= inject_Z k \/ inject_Z k == inject_Z m \/ inject_Z k + 1 <= inject_Z m)%Q).
  { destruct (Z.lt_trichotomy m k) as [H|[->|H]].
    - left. apply inject_lt_succ, H.
    - right; left. reflexivity.
    - right; right. apply inject_lt_succ, H. }
  revert T Hm0 H1 H2. generalize (inject_Z m) as x, (inject_Z k) as y. intros x y T H0 H1 H2.
  split.
  - apply (Qabs_case (x - mu)); apply (Qabs_case (y - mu)); intros; destruct T as [T|[T|T]]; lra.
  - apply (Qabs_case (x - mu)); apply (Qabs_case (y - mu)); apply (Qabs_case y); intros; destruct T as [T|[T|T]]; lra.
Qed.

Definition sg (b : bool) (q : Q) : Q := if b then Qopp q else q.
Lemma sg_sub b x y : (Qabs (sg b x - sg b y) == Qabs (x - y))%Q.
Proof.
  destruct b; unfold sg; [|reflexivity]. rewrite <- (Qabs_opp (x - y)).
  apply Qabs_wd. ring.
Qed.

Lemma Qmult_cancel x y z : (0 < z)%Q -> (x * z == y * z)%Q -> (x == y)%Q.
Proof. intros Hz H. apply (Qmult_inj_r x y z); [|exact H]. intros E. rewrite E in Hz. discriminate. Qed.

(** The number shown is the rounding of the result, with its sign. *)
Lemma shown_value v radix p (w : Q) :
  (2 <= radix)%N ->
  let P := (Z.of_N radix ^ Z.of_N p)%Z in
  let mu := ratio_abs (ratio_mul v (ratio_int P)) in
  let neg := ratio_lt v (ratio_int 0) in
  (w * inject_Z P == inject_Z (ratio_round mu))%Q ->
  (neg = true <-> (v < 0)%Q) /\
  (ratio_is_integer mu = true <-> representable radix p v) /\
  (representable radix p v -> (sg neg w == v)%Q) /\
  nearest radix p v (sg neg w).
Proof.
  intros Hr P mu neg Hw.
  assert (HP : (0 < P)%Z) by (apply Z.pow_pos_nonneg; lia).
  assert (HPq : (0 < inject_Z P)%Q) by (unfold Qlt; simpl; lia).
  assert (Hneg : neg = true <-> (v < 0)%Q) by apply ratio_lt_spec.
  assert (Emu : (mu == Qabs v * inject_Z P)%Q).
  { unfold mu, ratio_abs, ratio_mul, ratio_int. rewrite Qred_correct, Qabs_Qmult. rewrite (Qabs_pos (P # 1)); [reflexivity|]. unfold Qle; simpl; lia. }
  assert (Cmu : canon mu) by (apply canon_abs, canon_Qred).
  assert (Hmu : (0 <= mu)%Q) by apply Qabs_nonneg.
  destruct (ratio_round_spec mu Hmu) as (R0 & R1 & R2). set (m := ratio_round mu) in *.
  assert (Sv : (v == sg neg (Qabs v))%Q).
  { unfold sg. destruct neg eqn:En.
    - assert (v < 0)%Q by (apply Hneg; reflexivity). rewrite Qabs_neg by lra. ring.
    - assert (~ (v < 0)%Q) by (intros C; apply Hneg in C; discriminate). rewrite Qabs_pos by lra. reflexivity. }
  assert (Hrep : representable radix p v <-> exists k, (mu == inject_Z k)%Q).
  { unfold representable. fold P. split; intros [k Ek].
    - exists (Z.abs k). rewrite Emu. assert (Qabs v * inject_Z P == Qabs (v * inject_Z P))%Q as ->.
      { rewrite Qabs_Qmult. rewrite (Qabs_pos (inject_Z P)) by lra. reflexivity. }
      rewrite Ek. reflexivity.
    - exists (if neg then (- k)%Z else k). rewrite Sv. unfold sg. destruct neg.
      + rewrite inject_Z_opp, <- Ek, Emu. ring.
      + rewrite <- Ek, Emu. reflexivity. }
  split; [exact Hneg|]. split; [rewrite (canon_integer mu Cmu), Hrep; reflexivity|].
  split.
  - intros Hp. apply Hrep in Hp as [k Ek].
    assert (k = m).
    { rewrite Ek in R1, R2. unfold Qle, Qlt in R1, R2. simpl in R1, R2. lia. }
    subst k. rewrite Sv. assert (W : (w == Qabs v)%Q) by (apply (Qmult_cancel _ _ _ HPq); rewrite Hw, <- Emu; symmetry; exact Ek).
    unfold sg. destruct neg; rewrite W; reflexivity.
  - split.
    + exists (if neg then (- m)%Z else m). fold P. unfold sg. destruct neg; [|exact Hw]. rewrite inject_Z_opp, <- Hw. ring.
    + intros u [k Ek]. fold P in Ek.
      set (u' := sg neg u).
      assert (Eu : (u == sg neg u')%Q) by (unfold u', sg; destruct neg; ring).
      set (k' := if neg then (- k)%Z else k).
      assert (Ek' : (u' * inject_Z P == inject_Z k')%Q).
      { unfold u', k', sg. destruct neg; [rewrite inject_Z_opp, <- Ek; ring|exact Ek]. }
      assert (D1 : (Qabs (sg neg w - v) == Qabs (w - Qabs v))%Q).
      { rewrite <- (sg_sub neg w). apply Qabs_wd. rewrite Sv at 1. reflexivity. }
      assert (D2 : (Qabs (u - v) == Qabs (u' - Qabs v))%Q).
      { rewrite <- (sg_sub neg u'). apply Qabs_wd. rewrite Sv at 1. rewrite Eu at 1. reflexivity. }
      assert (M : forall x, (Qabs (x - Qabs v) * inject_Z P == Qabs (x * inject_Z P - mu))%Q).
      { intros x. rewrite Emu. rewrite <- (Qabs_pos (inject_Z P)) at 1 by lra. rewrite <- Qabs_Qmult. apply Qabs_wd. ring. }
      destruct (nearest_int m k' mu Hmu R0 R1 R2) as [N1 N2].
      rewrite D1, D2. split.
      * apply (Qmult_le_r _ _ _ HPq). rewrite !M, Hw, Ek'. exact N1.
      * intros Eq. assert (Eq' : (Qabs (inject_Z k' - mu) == Qabs (inject_Z m - mu))%Q).
        { rewrite <- Hw, <- Ek', <- !M. rewrite Eq. reflexivity. }
        specialize (N2 Eq'). apply (Qmult_le_r _ _ _ HPq).
        assert (A : forall x, (Qabs x * inject_Z P == Qabs (x * inject_Z P))%Q).
        { intros x. rewrite Qabs_Qmult, (Qabs_pos (inject_Z P)) by lra. reflexivity. }
        assert (A1 : (Qabs (sg neg w) == Qabs w)%Q) by (unfold sg; destruct neg; [apply Qabs_opp|reflexivity]).
        assert (A2 : (Qabs u == Qabs u')%Q) by (unfold u', sg; destruct neg; [symmetry; apply Qabs_opp|reflexivity]).
        rewrite A1, A2, !A, Hw, Ek'. rewrite (Qabs_pos (inject_Z m)) by (apply inject_nonneg, R0). exact N2.
Qed.

(** Everything about a printed number. *)
Lemma make_decimal_spec {E} v radix p (upper : bool) : (2 <= radix <= 16)%N ->
  exists (ids fds : list N) (neg : bool) (s : str),
    (forall commas, make_decimal_string (E := E) v radix p commas upper =
      Ok ((if neg then lit "-" else []) ++
          (if commas then insert_commas (spell upper ids) else spell upper ids) ++
          match fds with [] => [] | _ => lit "." ++ spell upper fds end)) /\
    make_decimal_string (E := E) v radix p false upper = Ok s /\
    decimal_text radix upper neg ids fds s /\ (neg = true <-> (v < 0)%Q) /\
    (List.length fds <= N.to_nat p)%nat /\
    (representable radix p v -> (text_value radix neg ids fds == v)%Q /\ forall r d, fds = r ++ [d] -> d <> 0%N) /\
    (~ representable radix p v -> List.length fds = N.to_nat p) /\
    nearest radix p v (text_value radix neg ids fds).
Proof.
  intros Hr. destruct (make_decimal_shape (E := E) v radix p upper Hr) as (ids & fds & Hs & Hd & Hne & Hz & Hv & Hl & Ht).
  cbv zeta in *. exists ids, fds, (ratio_lt v (ratio_int 0)). eexists.
  destruct (shown_value v radix p _ ltac:(lia) Hv) as (Hneg & Hint & Hrep & Hnear).
  split; [exact Hs|]. split; [apply (Hs false)|].
  split; [split; [reflexivity|auto]|]. split; [exact Hneg|]. split; [exact Hl|].
  split.
  { intros Hp. split; [exact (Hrep Hp)|]. rewrite (proj2 Hint Hp) in Ht. exact Ht. }
  split; [|exact Hnear].
  intros Hp. destruct (ratio_is_integer _) eqn:Ei in Ht; [|exact Ht]. destruct (Hp (proj1 Hint Ei)).
Qed.
