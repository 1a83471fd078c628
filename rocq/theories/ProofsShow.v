(** ProofsShow.v -- the program writes integers in decimal as the standard library does. *)
From Verif Require Import Base Position TokenTypes Errors Num SpecLex SpecPrint SpecDecimal ProofsLex ProofsText ProofsPrint.
From Coq Require Import String Ascii Lia Decimal DecimalString DecimalFacts DecimalZ List.
Local Open Scope nat_scope.
Local Open Scope list_scope.

Lemma digits_unique radix : (2 <= radix)%N -> forall a b, List.length a = List.length b ->
  Forall (fun d => (d < radix)%N) a -> Forall (fun d => (d < radix)%N) b -> int_value radix a = int_value radix b -> a = b.
Proof.
  intros Hr. induction a as [|x a IH]; intros [|y b] L Ha Hb E; try discriminate L; [reflexivity|].
  apply Forall_cons_iff in Ha as [Hx Ha]. apply Forall_cons_iff in Hb as [Hy Hb]. cbn [int_value] in E. injection L as L. rewrite L in E.
  pose proof (int_value_bounds radix a Hr Ha) as Ba. pose proof (int_value_bounds radix b Hr Hb) as Bb. rewrite L in Ba.
  set (B := (Z.of_N radix ^ Z.of_nat (List.length b))%Z) in *.
  assert (Z.of_N x = Z.of_N y) by nia. assert (x = y) as -> by lia. f_equal. apply IH; auto. lia.
Qed.
Lemma leading_digit radix ds : (2 <= radix)%N -> Forall (fun d => (d < radix)%N) ds -> ds <> [] -> (forall r, ds = 0%N :: r -> r = []) ->
  ds = [0%N] \/ (Z.of_N radix ^ Z.of_nat (List.length ds - 1) <= int_value radix ds)%Z.
Proof.
  intros Hr Hd Hn Hz. destruct ds as [|d ds]; [destruct (Hn eq_refl)|]. destruct (N.eq_dec d 0) as [->|Hd0]; [left; rewrite (Hz ds eq_refl); reflexivity|right].
  apply Forall_cons_iff in Hd as [_ Hd]. cbn [int_value List.length]. rewrite Nat.sub_succ, Nat.sub_0_r. pose proof (int_value_bounds radix ds Hr Hd). nia.
Qed.
Lemma int_digits_unique radix a b : (2 <= radix)%N -> Forall (fun d => (d < radix)%N) a -> Forall (fun d => (d < radix)%N) b ->
  a <> [] -> (forall r, a = 0%N :: r -> r = []) -> b <> [] -> (forall r, b = 0%N :: r -> r = []) ->
  int_value radix a = int_value radix b -> a = b.
Proof.
  intros Hr Ha Hb Na Za Nb Zb E.
  pose proof (int_value_bounds radix a Hr Ha) as Ba. pose proof (int_value_bounds radix b Hr Hb) as Bb.
  assert (P : forall n, (0 < Z.of_N radix ^ Z.of_nat n)%Z) by (intros n; apply Z.pow_pos_nonneg; lia).
  destruct (leading_digit radix a Hr Ha Na Za) as [->|La], (leading_digit radix b Hr Hb Nb Zb) as [->|Lb]; [reflexivity| | |].
  - cbn in E. pose proof (P (List.length b - 1)). lia.
  - cbn in E. pose proof (P (List.length a - 1)). lia.
  - apply (digits_unique radix Hr); auto.
    assert (M : forall m n, (m < n)%nat -> (Z.of_N radix ^ Z.of_nat m <= Z.of_N radix ^ Z.of_nat (n - 1))%Z) by (intros; apply Z.pow_le_mono_r; lia).
    destruct (lt_eq_lt_dec (List.length a) (List.length b)) as [[L|L]|L]; [|exact L|].
    + pose proof (M _ _ L). lia.
    + pose proof (M _ _ L). lia.
Qed.
Lemma integer_text_unique radix z s s' : (2 <= radix)%N -> integer_text radix z s -> integer_text radix z s' -> s = s'.
Proof.
  intros Hr (neg & ids & (-> & Hd & Hn & Hz) & Ng & V) (neg' & ids' & (-> & Hd' & Hn' & Hz') & Ng' & V').
  assert (neg = neg') as <- by (destruct neg, neg'; auto; [symmetry|]; tauto).
  rewrite app_nil_r in Hd, Hd'. assert (ids = ids') as ->; [|reflexivity].
  eapply int_digits_unique; eauto. destruct neg; lia.
Qed.
Lemma show_Z_text z : integer_text 10 z (show_Z z).
Proof.
  destruct (biguint_to_str_spec (Z.abs_N z) 10 ltac:(lia)) as (ds & E & Hne & Hf & Hv & Hz).
  exists (Z.ltb z 0), ds. unfold show_Z. rewrite N2Z.inj_abs_N in Hv.
  assert (X : spell false ds = biguint_to_str (Z.abs_N z) 10).
  { rewrite E. symmetry. apply (spell_digits false 10 ds); [lia|exact Hf]. }
  split; [split; [|split; [rewrite app_nil_r; exact Hf|split; [exact Hne|]]]|].
  - rewrite X, app_nil_r. destruct (Z.ltb z 0); reflexivity.
  - intros ds' Ed. destruct (Hz 0%N ds' Ed eq_refl) as [-> _]. reflexivity.
  - rewrite Z.ltb_lt. split; [reflexivity|]. rewrite Hv. destruct (Z.ltb_spec z 0); lia.
Qed.

Fixpoint dg (d : Decimal.uint) : list N :=
  match d with
  | Nil => [] | D0 l => 0%N :: dg l | D1 l => 1%N :: dg l | D2 l => 2%N :: dg l | D3 l => 3%N :: dg l | D4 l => 4%N :: dg l
  | D5 l => 5%N :: dg l | D6 l => 6%N :: dg l | D7 l => 7%N :: dg l | D8 l => 8%N :: dg l | D9 l => 9%N :: dg l
  end.
Lemma dg_spell d : lit (NilEmpty.string_of_uint d) = spell false (dg d).
Proof.
  induction d as [|d IH|d IH|d IH|d IH|d IH|d IH|d IH|d IH|d IH|d IH]; [reflexivity|..];
    cbn [NilEmpty.string_of_uint dg]; unfold spell in *; cbn [map]; rewrite <- IH; reflexivity.
Qed.
Lemma dg_small d : Forall (fun x => (x < 10)%N) (dg d).
Proof. induction d; cbn [dg]; constructor; auto; lia. Qed.

Lemma of_acc l : forall p, Z.pos (Pos.of_uint_acc l p) = (Z.pos p * 10 ^ Z.of_nat (List.length (dg l)) + int_value 10 (dg l))%Z.
Proof.
  induction l as [|l IH|l IH|l IH|l IH|l IH|l IH|l IH|l IH|l IH|l IH]; intros p; cbn [Pos.of_uint_acc dg List.length int_value];
    [cbn; lia|..]; rewrite IH, ?Pos2Z.inj_add, ?Pos2Z.inj_mul, ?Nat2Z.inj_succ, ?Z.pow_succ_r by lia; cbn [Z.of_N]; lia.
Qed.
Lemma dg_value d : Z.of_N (Pos.of_uint d) = int_value 10 (dg d).
Proof.
  induction d as [|l IH|l IH|l IH|l IH|l IH|l IH|l IH|l IH|l IH|l IH]; cbn [Pos.of_uint dg int_value]; [reflexivity|rewrite IH; cbn [Z.of_N]; lia|..];
    cbn [Z.of_N]; rewrite of_acc; lia.
Qed.
Lemma nzhead_shape d r : nzhead d <> D0 r.
Proof. induction d; cbn [nzhead]; try discriminate. exact IHd. Qed.
Lemma dg_lead d : unorm d = d -> dg d <> [] /\ (forall ds, dg d = 0%N :: ds -> ds = []).
Proof.
  intros E. split.
  - destruct d; discriminate.
  - intros ds H. destruct d; try discriminate H. cbn [unorm nzhead] in E. destruct (nzhead d) as [|r|r|r|r|r|r|r|r|r|r] eqn:Z; unfold unorm in E; cbn [nzhead] in E; rewrite Z in E; try discriminate E.
    + injection E as <-. cbn in H. congruence.
    + destruct (nzhead_shape _ _ Z).
Qed.
Lemma lit_app_minus t : lit (String "-"%char t) = lit "-" ++ lit t.
Proof. reflexivity. Qed.
Lemma nonnil_string d : d <> Nil -> NilZero.string_of_uint d = NilEmpty.string_of_uint d.
Proof. destruct d; [contradiction|..]; reflexivity. Qed.
Lemma decimal_integer_text z : integer_text 10 z (in_decimal z).
Proof.
  pose proof (of_to z) as V. pose proof (to_of (Z.to_int z)) as Nm. rewrite V in Nm. unfold in_decimal. destruct (Z.to_int z) as [d|d] eqn:Ez.
  - exists false, (dg d). cbn [norm] in Nm. injection Nm as Nm. destruct (dg_lead d (eq_sym Nm)) as [A B]. cbn [Z.of_int] in V. unfold Z.of_uint in V. rewrite dg_value in V.
    assert (d <> Nil) by (intros ->; apply A; reflexivity).
    split; [split; [|split; [rewrite app_nil_r; apply dg_small|split; assumption]]|].
    + cbn [NilZero.string_of_int]. rewrite nonnil_string, dg_spell, app_nil_r by assumption. reflexivity.
    + split; [|auto]. split; [discriminate|]. pose proof (int_value_bounds 10 (dg d) ltac:(lia) (dg_small d)). lia.
  - cbn [norm] in Nm. destruct (nzhead d) eqn:Hz; try discriminate Nm; try (destruct (nzhead_shape _ _ Hz)); injection Nm as Nm;
      (assert (Un : unorm d = d) by (unfold unorm; rewrite Hz; symmetry; exact Nm);
       exists true, (dg d); destruct (dg_lead d Un) as [A B]; cbn [Z.of_int] in V; unfold Z.of_uint in V; rewrite dg_value in V;
       assert (d <> Nil) by (intros ->; apply A; reflexivity);
       split; [split; [|split; [rewrite app_nil_r; apply dg_small|split; assumption]]|];
       [cbn [NilZero.string_of_int]; rewrite nonnil_string, lit_app_minus, dg_spell, app_nil_r by assumption; reflexivity
       |split; [|auto]; split; [intros _|reflexivity]; rewrite Nm in V; cbn [dg int_value Z.of_N] in V;
        pose proof (int_value_bounds 10 (dg u) ltac:(lia) (dg_small u)); pose proof (Z.pow_pos_nonneg 10 (Z.of_nat (List.length (dg u)))); lia]).
Qed.
Lemma show_Z_decimal z : show_Z z = in_decimal z.
Proof. apply (integer_text_unique 10 z); [lia|apply show_Z_text|apply decimal_integer_text]. Qed.
Lemma show_N_decimal n : show_N n = in_decimal (Z.of_N n).
Proof. rewrite <- show_Z_decimal. unfold show_Z, show_N. destruct (Z.ltb_spec (Z.of_N n) 0); [lia|]. rewrite Zabs2N.id. reflexivity. Qed.
