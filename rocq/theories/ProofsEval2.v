(** ProofsEval2.v -- determinism of the meaning of expressions, settings, and the consequences
    for the evaluator. *)
From Verif Require Import Base Position Num TokenTypes Errors SavedData Variables Operations SyntaxTree.
From Verif Require Import SpecLex SpecEval ProofsLex ProofsText ProofsNum ProofsRoot ProofsRoot2 ProofsPower ProofsParse3 ProofsEval.
From Coq Require Import Qabs Qpower String Lqa.
Local Open Scope Q_scope.

(** ** Settings *)

Lemma tolerance_eps {F} radix k : (1 <= radix)%N ->
  ratio_new (E := F) 1 (Z.of_N radix ^ Z.of_N k) = Ok (tolerance radix k).
Proof.
  intros Hr. destruct (ratio_new_eps (E := F) radix k Hr) as (e & -> & N1 & D1). f_equal.
  unfold tolerance. rewrite <- D1. destruct e; simpl in *. subst. reflexivity.
Qed.

Lemma u8_twice pr p e : (p < 256)%N -> (e < 256)%N ->
  match (if N.ltb (p + e + 1) 256 then Some (p + e + 1)%N
         else match pr with Debug => None | Release => Some ((p + e + 1) mod 256)%N end) with
  | Some k => exists t, (forall F, u8_add (E := F) pr p e = Ok t) /\ (forall F, u8_add (E := F) pr t 1 = Ok k)
  | None => forall F, u8_add (E := F) pr p e = Panic ArithOverflow \/
      exists t, u8_add (E := F) pr p e = Ok t /\ (forall F, u8_add (E := F) pr t 1 = Panic ArithOverflow)
  end.
Proof.
  intros Hp He. unfold u8_add. destruct (N.ltb_spec (p + e + 1) 256) as [L|L].
  - exists (p + e)%N. destruct (N.ltb_spec (p + e) 256); [|lia]. split; [reflexivity|].
    destruct (N.ltb_spec (p + e + 1) 256); [reflexivity|lia].
  - destruct pr.
    + intros F. destruct (N.ltb_spec (p + e) 256) as [L1|L1]; [right|left; reflexivity].
      exists (p + e)%N. split; [reflexivity|]. intros F'. destruct (N.ltb_spec (p + e + 1) 256); [lia|reflexivity].
    + destruct (N.ltb_spec (p + e) 256) as [L1|L1].
      * exists (p + e)%N. split; [reflexivity|]. destruct (N.ltb_spec (p + e + 1) 256); [lia|reflexivity].
      * assert (M : ((p + e) mod 256 = p + e - 256)%N).
        { symmetry. apply (N.mod_unique _ _ 1); lia. }
        exists ((p + e) mod 256)%N. split; [reflexivity|]. rewrite M. intros F.
        destruct (N.ltb_spec (p + e - 256 + 1) 256) as [L2|L2]; f_equal.
        -- apply (N.mod_unique _ _ 1); lia.
        -- replace (p + e + 1)%N with (p + e - 256 + 1 + 1 * 256)%N by lia. rewrite N.mod_add by lia. reflexivity.
Qed.

Lemma exponentiate_overflow pr base exponent P radix :
  (forall F, u8_add (E := F) pr P 1 = Panic ArithOverflow) ->
  exists q, exponentiate pr base exponent P radix = Panic q.
Proof.
  intros H. unfold exponentiate. destruct (ratio_is_negative exponent).
  - unfold ratio_inv. destruct (Z.eqb (Qnum base) 0); cbn [bind]; [eauto|]. rewrite H. cbn [bind]. eauto.
  - cbn [bind]. rewrite H. cbn [bind]. eauto.
Qed.

Lemma exec_power_sound pr a : settings_ok a -> forall p x y, canon x -> canon y ->
  power_with pr a p x y (result_of (exec_power pr a p x y)) /\ (forall v, exec_power pr a p x y = Ok v -> canon v).
Proof.
  intros (Hp & He & Hr) p x y Cx Cy. pose proof (u8_twice pr _ _ Hp He) as U.
  unfold power_with, digits_kept, exec_power.
  destruct (if N.ltb (a_precision a + a_extra_precision a + 1) 256 then _ else _) as [k|].
  - destruct U as (t & U1 & U2). rewrite U1. cbn [bind].
    destruct (exponentiate_spec pr p x y t (a_radix a) k _ Cx Cy Hr (U2 _) (tolerance_eps _ _ Hr)) as [P C].
    split; [exact P|]. intros v. unfold map_err. destruct (exponentiate pr x y t (a_radix a)) eqn:E; try discriminate.
    intros H. apply ok_inj in H. subst. exact C.
  - destruct (U failure) as [->|(t & -> & U2)]; cbn [bind]; [split; [reflexivity|discriminate]|].
    destruct (exponentiate_overflow pr x y t (a_radix a) U2) as (q & ->). split; [reflexivity|discriminate].
Qed.

(** ** Determinism *)

Lemma Qpower_inv_eq x y n : x == y -> x ^ n == y ^ n.
Proof. intros H. rewrite H. reflexivity. Qed.

Lemma fraction_unique y y' n d n' d' : y == y' -> fraction y n d -> fraction y' n' d' -> n = n' /\ d = d'.
Proof.
  intros E (H & G & D) (H' & G' & D').
  assert (X : n # d = n' # d').
  { apply canon_inj; [apply canon_gcd; exact G|apply canon_gcd; exact G'|]. rewrite <- H, <- H'. exact E. }
  injection X. auto.
Qed.
Lemma fraction_not_integer y y' n d z : y == y' -> fraction y n d -> y' == inject_Z z -> False.
Proof.
  intros E (H & G & D) Hz.
  assert (X : n # d = z # 1).
  { apply canon_inj; [apply canon_gcd; exact G|apply canon_int|]. rewrite <- H, E, Hz. reflexivity. }
  injection X as _ X. subst d. lia.
Qed.
Lemma fraction_neg y n d : fraction y n d -> y < 0 -> (n < 0)%Z.
Proof. intros (H & _) L. rewrite H in L. unfold Qlt in L. simpl in L. lia. Qed.
Lemma fraction_num y n d : fraction y n d -> n <> 0%Z.
Proof. intros (_ & G & D) ->. simpl in G. lia. Qed.

Lemma inject_pow k d : inject_Z k ^ Zpos d == inject_Z (k ^ Zpos d).
Proof. rewrite Zpower_Qpower by lia. reflexivity. Qed.
Lemma zpow_inj d j k : (0 <= j)%Z -> (0 <= k)%Z -> (j ^ Zpos d = k ^ Zpos d)%Z -> j = k.
Proof.
  intros Hj Hk E. destruct (Z.lt_total j k) as [L|[L|L]]; [|exact L|];
    pose proof (Z.pow_lt_mono_l j k (Zpos d)); pose proof (Z.pow_lt_mono_l k j (Zpos d)); lia.
Qed.
Lemma zpow_neg d k : (Z.odd (Zpos d) = true -> (- k) ^ Zpos d = - (k ^ Zpos d))%Z /\
  (Z.even (Zpos d) = true -> (- k) ^ Zpos d = k ^ Zpos d)%Z.
Proof.
  split; intros H.
  - apply Z.pow_opp_odd. apply Z.odd_spec. exact H.
  - apply Z.pow_opp_even. apply Z.even_spec. exact H.
Qed.
Lemma zroot_inj d j k : ((0 <= j)%Z \/ Z.odd (Zpos d) = true) -> ((0 <= k)%Z \/ Z.odd (Zpos d) = true) ->
  (j ^ Zpos d = k ^ Zpos d)%Z -> j = k.
Proof.
  intros Hj Hk E.
  assert (P : forall x, (0 < x -> 0 < x ^ Zpos d)%Z) by (intros; apply Z.pow_pos_nonneg; lia).
  destruct (Z_lt_le_dec j 0) as [J|J], (Z_lt_le_dec k 0) as [K|K].
  - destruct Hj as [|O]; [lia|]. assert (- j = - k)%Z; [|lia]. apply (zpow_inj d); [lia|lia|].
    rewrite !(proj1 (zpow_neg d _) O). lia.
  - destruct Hj as [|O]; [lia|]. pose proof (P (- j)%Z ltac:(lia)) as A. rewrite (proj1 (zpow_neg d _) O) in A.
    assert (0 <= k ^ Zpos d)%Z by (apply Z.pow_nonneg; lia). lia.
  - destruct Hk as [|O]; [lia|]. pose proof (P (- k)%Z ltac:(lia)) as A. rewrite (proj1 (zpow_neg d _) O) in A.
    assert (0 <= j ^ Zpos d)%Z by (apply Z.pow_nonneg; lia). lia.
  - apply (zpow_inj d); assumption.
Qed.
Lemma zpow_even_nonneg d k : Z.even (Zpos d) = true -> (0 <= k ^ Zpos d)%Z.
Proof. intros H. apply Z.even_spec in H. apply Z.pow_even_nonneg. exact H. Qed.

Lemma even_not_odd d : Z.even (Zpos d) = true -> Z.odd (Zpos d) = true -> False.
Proof. rewrite even_odd_pos. destruct (Z.odd (Zpos d)); discriminate. Qed.

Lemma small_not_power x n d k : ~ x == 0 -> Qabs (x ^ n) < 1 -> inject_Z k ^ Zpos d == x ^ n -> False.
Proof.
  intros Hx Hs Hk. rewrite <- Hk, inject_pow in Hs. unfold Qlt, Qabs in Hs; simpl in Hs.
  assert (E : (k ^ Zpos d = 0)%Z) by lia.
  apply (Qpower_not_0 x n Hx). rewrite <- Hk, inject_pow, E. reflexivity.
Qed.

(** a result of a power that is exact is the only one *)
Lemma power_det eps p x y x' y' r r' : x == x' -> y == y' ->
  power_exact p x y r -> power_result eps p x' y' r' -> same_result r r'.
Proof.
  intros Ex Ey H [H'|H'].
  - destruct H as [z q Hy Hex Hq|Hx Hy|n d Hf Hex Hn Hd|n d k q Hf Hex Hk Ho Hq|n d Hf Hx Hs Ho];
    destruct H' as [z' q' Hy' Hex' Hq'|Hx' Hy'|n' d' Hf' Hex' Hn' Hd'|n' d' k' q' Hf' Hex' Hk' Ho' Hq'|n' d' Hf' Hx' Hs' Ho'];
    cbn [same_result]; try exact I;
    try (exfalso; exact (fraction_not_integer _ _ _ _ _ Ey Hf Hy'));
    try (exfalso; exact (fraction_not_integer _ _ _ _ _ (Qeq_sym _ _ Ey) Hf' Hy));
    try (destruct (fraction_unique _ _ _ _ _ _ Ey Hf Hf') as [<- <-]).
    + rewrite Hq, Hq', Ex. assert (inject_Z z == inject_Z z') by (rewrite <- Hy, <- Hy'; exact Ey).
      assert (z = z') by (unfold Qeq in H; simpl in H; lia). subst. reflexivity.
    + destruct Hex as [L|L]; [|rewrite Ex in L; contradiction]. rewrite <- Ey, Hy in Hy'.
      unfold Qlt in Hy'. simpl in Hy'. lia.
    + destruct Hex' as [L|L]; [|rewrite <- Ex in L; contradiction]. rewrite Ey, Hy' in Hy.
      unfold Qlt in Hy. simpl in Hy. lia.
    + destruct Hex' as [L|L]; [|rewrite <- Ex in L; contradiction]. rewrite Ey in Hy.
      apply (fraction_neg _ _ _ Hf') in Hy. lia.
    + destruct Hex' as [L|L]; [|rewrite <- Ex in L; contradiction]. rewrite Ey in Hy.
      apply (fraction_neg _ _ _ Hf') in Hy. lia.
    + destruct Hex as [L|L]; [|rewrite Ex in L; contradiction]. rewrite <- Ey in Hy'.
      apply (fraction_neg _ _ _ Hf) in Hy'. lia.
    + reflexivity.
    + rewrite Ex, <- Hk', inject_pow in Hn. unfold Qlt in Hn; simpl in Hn.
      pose proof (zpow_even_nonneg d k' Hd). lia.
    + rewrite <- Ex in Ho'. destruct Ho' as [L|L]; [lra|]. eapply even_not_odd; eauto.
    + destruct Hex as [L|L]; [|rewrite Ex in L; contradiction]. rewrite <- Ey in Hy'.
      apply (fraction_neg _ _ _ Hf) in Hy'. lia.
    + rewrite <- Ex, <- Hk, inject_pow in Hn'. unfold Qlt in Hn'; simpl in Hn'.
      pose proof (zpow_even_nonneg d k Hd'). lia.
    + rewrite Hq, Hq'. rewrite <- Ex, <- Hk in Hk'. rewrite !inject_pow in Hk'.
      assert (k' ^ Zpos d = k ^ Zpos d)%Z by (unfold Qeq in Hk'; simpl in Hk'; lia).
      apply zroot_inj in H; auto. subst. reflexivity.
    + eapply (small_not_power x n d k); eauto; [rewrite Ex; exact Hx'|rewrite Ex; exact Hs'].
    + rewrite Ex in Ho. destruct Ho as [L|L]; [lra|]. eapply even_not_odd; eauto.
    + eapply (small_not_power x n d k'); eauto. rewrite Ex. exact Hk'.
  - destruct H' as (q' & -> & n' & d' & Hf' & Hl' & Ho' & Hno' & _).
    destruct H as [z q Hy Hex Hq|Hx Hy|n d Hf Hex Hn Hd|n d k q Hf Hex Hk Ho Hq|n d Hf Hx Hs Ho]; cbn [same_result];
    try (destruct (fraction_unique _ _ _ _ _ _ Ey Hf Hf') as [<- <-]).
    + exfalso; exact (fraction_not_integer _ _ _ _ _ (Qeq_sym _ _ Ey) Hf' Hy).
    + rewrite <- Ex, Hx, Qpower_0 in Hl' by (eapply fraction_num; eauto). revert Hl'. vm_compute. auto.
    + rewrite Ex in Hn. destruct Ho' as [L|L]; [lra|]. eapply even_not_odd; eauto.
    + exfalso. apply (Hno' k). rewrite <- Ex. exact Hk.
    + rewrite Ex in Hs. lra.
Qed.

(** ** Determinism of meanings *)
Section Det.
  Context (L1 L2 : str -> position -> result -> Prop) (P1 P2 : position -> Q -> Q -> result -> Prop).
  Hypothesis HL : forall x p r r', L1 x p r -> L2 x p r' -> same_result r r'.
  Hypothesis HP : forall p x y x' y' r r', x == x' -> y == y' -> P1 p x y r -> P2 p x' y' r' -> same_result r r'.

  Lemma remainder_unique x y r x' y' r' : x == x' -> y == y' -> remainder x y r -> remainder x' y' r' -> r == r'.
  Proof.
    intros Ex Ey ((q & Hq) & Ha & Hs) ((q' & Hq') & Ha' & Hs').
    rewrite <- Ex in Hq', Hs'. rewrite <- Ey in Hq', Ha'. clear x' y' Ex Ey.
    assert (E : r - r' == inject_Z (q' - q) * y).
    { unfold Zminus. rewrite inject_Z_plus, inject_Z_opp. lra. }
    assert (B : Qabs (r - r') < Qabs y).
    { apply Qabs_case; intros; revert Ha Ha'; (apply (Qabs_case r); [|intros]); intros; revert Ha Ha'; apply (Qabs_case r'); intros;
      destruct Hs as [?|[[? ?]|[? ?]]], Hs' as [?|[[? ?]|[? ?]]]; lra. }
    rewrite E, Qabs_Qmult in B.
    destruct (Z.eq_dec (q' - q) 0) as [D|D]; [rewrite D in E; change (inject_Z 0) with 0 in E; lra|].
    exfalso. assert (1 <= Qabs (inject_Z (q' - q))).
    { unfold Qabs, inject_Z, Qle; simpl. lia. }
    pose proof (Qabs_nonneg y). nra.
  Qed.

  Lemma binary_det p o x y r x' y' r' : x == x' -> y == y' -> binary P1 p x y o r -> binary P2 p x' y' o r' -> same_result r r'.
  Proof.
    intros Ex Ey H H'. destruct H; inversion H'; subst; cbn [same_result]; try reflexivity; 
      try (exfalso; match goal with A : ~ _ == 0, B : _ == 0 |- _ => apply A; lra end).
    - match goal with A : ?q == _, B : ?q' == _ |- ?q == ?q' => rewrite A, B, ?Ex, ?Ey; reflexivity end.
    - match goal with A : ?q == _, B : ?q' == _ |- ?q == ?q' => rewrite A, B, ?Ex, ?Ey; reflexivity end.
    - match goal with A : ?q == _, B : ?q' == _ |- ?q == ?q' => rewrite A, B, ?Ex, ?Ey; reflexivity end.
    - match goal with A : ?q * _ == _, B : ?q' * _ == _ |- ?q == ?q' =>
        rewrite <- Ey, <- Ex, <- A in B; apply Qmult_inj_r in B; [symmetry; exact B|assumption] end.
    - eapply remainder_unique; [exact Ex|exact Ey|eassumption|eassumption].
    - eapply HP; [exact Ex|exact Ey|eassumption|eassumption].
  Qed.
  Lemma unary_det p o x r x' r' : x == x' -> unary P1 p x o r -> unary P2 p x' o r' -> same_result r r'.
  Proof.
    intros Ex H H'. destruct H; inversion H'; subst; cbn [same_result].
    - match goal with A : ?q == _, B : ?q' == _ |- ?q == ?q' => rewrite A, B, ?Ex, ?Ey; reflexivity end.
    - match goal with A : ?q == _, B : ?q' == _ |- ?q == ?q' => rewrite A, B, ?Ex, ?Ey; reflexivity end.
    - eapply HP; [exact Ex|reflexivity|eassumption|eassumption].
  Qed.
  Lemma extreme_det f qs q qs' q' : Forall2 Qeq qs qs' -> extreme f qs q -> extreme f qs' q' -> q == q'.
  Proof.
    intros F ((v & Hv & Ev) & B) ((v' & Hv' & Ev') & B').
    assert (X : exists w, In w qs' /\ v == w).
    { clear - F Hv. induction F; [destruct Hv|]. destruct Hv as [<-|Hv]; [eexists; split; [left; reflexivity|exact H]|].
      destruct (IHF Hv) as (w & Hw & Ew). exists w. split; [right; exact Hw|exact Ew]. }
    assert (Y : exists w, In w qs /\ w == v').
    { clear - F Hv'. induction F; [destruct Hv'|]. destruct Hv' as [<-|Hv']; [eexists; split; [left; reflexivity|exact H]|].
      destruct (IHF Hv') as (w & Hw & Ew). exists w. split; [right; exact Hw|exact Ew]. }
    destruct X as (w & Hw & Ew), Y as (u & Hu & Eu). apply B' in Hw. apply B in Hu.
    destruct f; apply Qle_antisym; rewrite ?Ev, ?Ev', ?Ew, <- ?Eu in *; try assumption; rewrite ?Ev, ?Ev', ?Ew, <- ?Eu in *; try assumption.
  Qed.

  Lemma same_stops r r' : same_result r r' -> stops r -> stops r'.
  Proof. destruct r, r'; simpl; tauto. Qed.
  Lemma same_value r q : same_result (Value q) r -> exists q', r = Value q' /\ q == q'.
  Proof. destruct r; simpl; try contradiction. eauto. Qed.

  Ltac use := repeat match goal with
    | IH : forall r', meaning L2 P2 ?n r' -> _, M : meaning L2 P2 ?n ?r |- _ => pose proof (IH r M); clear M end;
    cbn [same_result] in *.
  Ltac dead := exfalso; repeat match goal with S : stops ?r |- _ => destruct r; cbn [stops same_result] in *; try contradiction end.

  Lemma meaning_det :
    (forall n r, meaning L1 P1 n r -> forall r', meaning L2 P2 n r' -> same_result r r') /\
    (forall ns qs, meanings L1 P1 ns qs ->
       (forall qs', meanings L2 P2 ns qs' -> Forall2 Qeq qs qs') /\ (forall r, first_stop L2 P2 ns r -> False)) /\
    (forall ns r, first_stop L1 P1 ns r ->
       (forall qs', meanings L2 P2 ns qs' -> False) /\ (forall r', first_stop L2 P2 ns r' -> same_result r r')).
  Proof.
    apply meaning_mutind.
    - intros v p q Hq r' H'. inversion H'; subst. cbn [same_result]. rewrite Hq. symmetry. assumption.
    - intros x p r Hl r' H'. inversion H'; subst. eapply HL; eauto.
    - intros p q n r _ IH r' H'. inversion H'; subst. auto.
    - intros o p n x r _ IH U r' H'. inversion H'; subst; use; [|dead]. eapply unary_det; eauto.
    - intros o p n r _ IH S r' H'. inversion H'; subst; use; [dead|]. assumption.
    - intros o p a b x y r _ IHa _ IHb B r' H'. inversion H'; subst; use; [|dead|dead].
      eapply binary_det; [| |exact B|eassumption]; assumption.
    - intros o p a b r _ IH S r' H'. inversion H'; subst; use; [dead|assumption|dead].
    - intros o p a b x r _ IHa _ IHb S r' H'. inversion H'; subst; use; [dead|dead|assumption].
    - intros f p ns w qs q _ [IH1 IH2] X r' H'. inversion H'; subst.
      + cbn [same_result]. match goal with M : meanings _ _ _ _ |- _ => eapply extreme_det; [exact (IH1 _ M)|exact X|assumption] end.
      + exfalso. specialize (IH1 [] (ms_nil _ _)). inversion IH1; subst. destruct X as ((v & [] & _) & _).
      + exfalso. eauto.
    - intros f p w r' H'. inversion H'; subst.
      + match goal with M : meanings _ _ [] _, X : extreme _ _ _ |- _ => inversion M; subst; destruct X as ((v & [] & _) & _) end.
      + reflexivity.
      + match goal with M : first_stop _ _ [] _ |- _ => inversion M end.
    - intros f p ns w r _ [IH1 IH2] r' H'. inversion H'; subst.
      + exfalso. eauto.
      + exfalso. apply (IH1 [] (ms_nil _ _)).
      + auto.
    - split; [|intros r H'; inversion H']. intros qs' H'. inversion H'; subst. constructor.
    - intros n ns q qs _ IH _ [IH1 IH2]. split.
      + intros qs' H'. inversion H'; subst; use. constructor; [assumption|apply IH1; assumption].
      + intros r H'. inversion H'; subst; use; [dead|eauto].
    - intros n ns r _ IH S. split.
      + intros qs' H'. inversion H'; subst; use. dead.
      + intros r' H'. inversion H'; subst; use; [assumption|dead].
    - intros n ns q r _ IH _ [IH1 IH2]. split.
      + intros qs' H'. inversion H'; subst; eauto.
      + intros r' H'. inversion H'; subst; use; [dead|auto].
  Qed.
End Det.

Lemma var_result_det s x p r r' : env_ok s -> no_faults s -> var_result s x p r -> var_result s x p r' -> same_result r r'.
Proof.
  intros [_ O2] NF H H'.
  destruct H; inversion H'; subst; cbn [same_result]; try reflexivity; try congruence;
  try (exfalso; eapply NF; eassumption);
  repeat match goal with A : e_vars s = Some _, B : e_vars s = Some _ |- _ => rewrite A in B; injection B as <- | A : e_db s = Some _, B : e_db s = Some _ |- _ => rewrite A in B; injection B as <- end.
  - assert (v0 = v) by congruence. subst. rewrite H1, H4. reflexivity.
  - assert (v0 = v) by (eapply on_disk_inj; eauto). subst. rewrite H3, H8. reflexivity.
  - match goal with O : on_disk _ _ _, N : not_on_disk _ _ |- _ => destruct O as (row & Hr & Nr & _); exact (N row Hr Nr) end.
  - match goal with O : on_disk _ _ _, N : not_on_disk _ _ |- _ => destruct O as (row & Hr & Nr & _); exact (N row Hr Nr) end.
  - exfalso; match goal with A : In true (sd_faults ?d) |- _ => apply (NF d); assumption end.
  - exfalso; match goal with A : In true (sd_faults ?d) |- _ => apply (NF d); assumption end.
Qed.

(** ** The evaluator *)
Lemma exec_meaning pr a n s s' o : settings_ok a -> env_ok s -> literals_ok n -> exec pr a n s = (s', o) ->
  same_values s s' /\ env_ok s' /\ meaning (var_result s) (power_with pr a) n (result_of o) /\
  (forall v, o = Ok v -> canon v).
Proof.
  intros Ha Hs Hn H.
  destruct (exec_sound pr a (power_with pr a) (exec_power_sound pr a Ha) s Hs n Hn s (grows_refl s) s' o H) as (G & M & C).
  split; [apply grows_same; assumption|]. split; [eapply grows_ok; eauto|]. split; assumption.
Qed.

(** The parts of an expression that do not depend on the precision settings have an exact result. *)
Lemma exec_exact pr a k n s r : settings_ok a -> digits_kept pr a = Some k -> env_ok s -> no_faults s -> literals_ok n ->
  meaning (var_result s) power_exact n r -> exists s' o, exec pr a n s = (s', o) /\ agrees o r.
Proof.
  intros Ha Hk Hs Hf Hn M. destruct (exec pr a n s) as [s' o] eqn:E. exists s', o. split; [reflexivity|].
  destruct (exec_meaning pr a n s s' o Ha Hs Hn E) as (_ & _ & M' & _).
  assert (HL : forall x p r r', var_result s x p r -> var_result s x p r' -> same_result r r')
    by (intros; eapply var_result_det; eauto).
  assert (HP : forall p x y x' y' r r', x == x' -> y == y' -> power_exact p x y r -> power_with pr a p x' y' r' -> same_result r r').
  { intros p x y x' y' r0 r' Ex Ey P P'. unfold power_with in P'. rewrite Hk in P'. eapply power_det; [exact Ex|exact Ey|exact P|exact P']. }
  pose proof (proj1 (meaning_det _ _ _ _ HL HP) n r M _ M') as S.
  destruct r, o; cbn in *; auto; try contradiction. symmetry. exact S.
Qed.
(** the same without any power: no condition on the precision *)
Lemma exec_no_power pr a n s r : settings_ok a -> env_ok s -> no_faults s -> literals_ok n ->
  meaning (var_result s) (fun _ _ _ _ => False) n r -> exists s' o, exec pr a n s = (s', o) /\ agrees o r.
Proof.
  intros Ha Hs Hf Hn M. destruct (exec pr a n s) as [s' o] eqn:E. exists s', o. split; [reflexivity|].
  destruct (exec_meaning pr a n s s' o Ha Hs Hn E) as (_ & _ & M' & _).
  assert (HL : forall x p r r', var_result s x p r -> var_result s x p r' -> same_result r r')
    by (intros; eapply var_result_det; eauto).
  assert (HP : forall (p : position) (x y x' y' : Q) r r', x == x' -> y == y' -> False -> power_with pr a p x' y' r' -> same_result r r') by (intros; contradiction).
  pose proof (proj1 (meaning_det _ _ (fun _ _ _ _ => False) _ HL HP) n r M _ M') as S.
  destruct r, o; cbn in *; auto; try contradiction. symmetry. exact S.
Qed.
