(** ProofsPrint3.v -- the shown text exists and is unique. *)
From Verif Require Import Base Position Num TokenTypes Errors SyntaxTree Calculate SpecLex SpecPrint ProofsNum ProofsText ProofsPrint ProofsShow ProofsPrint2.
From Coq Require Import String Qabs Lia Lqa.
Local Open Scope nat_scope.
Local Open Scope list_scope.

Lemma frac_bounds radix ds : (2 <= radix)%N -> Forall (fun d => (d < radix)%N) ds -> (0 <= frac_value radix ds /\ frac_value radix ds < 1)%Q.
Proof.
  intros Hr. induction ds as [|d ds IH]; intros H; [cbn [frac_value]; split; lra|]. apply Forall_cons_iff in H as [Hd H]. destruct (IH H) as [A B]. cbn [frac_value].
  assert (R : (0 < inject_Z (Z.of_N radix))%Q) by (change 0%Q with (inject_Z 0); rewrite <- Zlt_Qlt; lia).
  assert (D0 : (0 <= inject_Z (Z.of_N d))%Q) by (change 0%Q with (inject_Z 0); rewrite <- Zle_Qle; lia).
  assert (D1 : (inject_Z (Z.of_N d) + 1 <= inject_Z (Z.of_N radix))%Q) by (change 1%Q with (inject_Z 1); rewrite <- inject_Z_plus, <- Zle_Qle; lia).
  split.
  - apply Qle_shift_div_l; [exact R|]. lra.
  - apply Qlt_shift_div_r; [exact R|]. lra.
Qed.
Lemma frac_same_length radix a b : (2 <= radix)%N -> List.length a = List.length b ->
  Forall (fun d => (d < radix)%N) a -> Forall (fun d => (d < radix)%N) b -> (frac_value radix a == frac_value radix b)%Q -> a = b.
Proof.
  intros Hr L Ha Hb E. apply (digits_unique radix Hr); auto.
  pose proof (frac_value_int radix a Hr) as A. pose proof (frac_value_int radix b Hr) as B. rewrite E, L in A. rewrite A in B.
  unfold Qeq in B. cbn in B. lia.
Qed.
Lemma snoc_repeat0 k : repeat 0%N (S k) = repeat 0%N k ++ [0%N].
Proof. induction k as [|k IH]; [reflexivity|]. cbn [repeat app] in *. f_equal. exact IH. Qed.
Lemma frac_shorter radix a b : (2 <= radix)%N -> List.length a <= List.length b ->
  Forall (fun d => (d < radix)%N) a -> Forall (fun d => (d < radix)%N) b -> (forall ds d, b = ds ++ [d] -> d <> 0%N) ->
  (frac_value radix a == frac_value radix b)%Q -> a = b.
Proof.
  intros Hr L Ha Hb Tb E. set (k := List.length b - List.length a).
  assert (X : a ++ repeat 0%N k = b).
  { apply (frac_same_length radix); auto.
    - rewrite app_length, repeat_length. unfold k. lia.
    - apply Forall_app. split; [exact Ha|]. apply Forall_forall. intros d Hd. apply repeat_spec in Hd as ->. lia.
    - rewrite frac_value_app0 by exact Hr. exact E. }
  destruct k as [|k]; [rewrite app_nil_r in X; exact X|].
  rewrite snoc_repeat0, app_assoc in X. destruct (Tb _ _ (eq_sym X) eq_refl).
Qed.
Lemma text_parts radix i f i' f' : (2 <= radix)%N -> Forall (fun d => (d < radix)%N) (i ++ f) -> Forall (fun d => (d < radix)%N) (i' ++ f') ->
  (inject_Z (int_value radix i) + frac_value radix f == inject_Z (int_value radix i') + frac_value radix f')%Q ->
  int_value radix i = int_value radix i' /\ (frac_value radix f == frac_value radix f')%Q.
Proof.
  intros Hr H H' E. apply Forall_app in H as [_ Hf]. apply Forall_app in H' as [_ Hf'].
  destruct (frac_bounds radix f Hr Hf) as [A B]. destruct (frac_bounds radix f' Hr Hf') as [A' B'].
  assert (int_value radix i = int_value radix i').
  { assert (X : (inject_Z (int_value radix i) < inject_Z (int_value radix i') + 1)%Q) by lra.
    assert (Y : (inject_Z (int_value radix i') < inject_Z (int_value radix i) + 1)%Q) by lra.
    change 1%Q with (inject_Z 1) in X, Y. rewrite <- inject_Z_plus, <- Zlt_Qlt in X, Y. lia. }
  split; [assumption|]. rewrite H in E. lra.
Qed.
Lemma text_value_abs radix neg i f : (2 <= radix)%N -> Forall (fun d => (d < radix)%N) (i ++ f) ->
  (Qabs (text_value radix neg i f) == inject_Z (int_value radix i) + frac_value radix f)%Q.
Proof.
  intros Hr H. apply Forall_app in H as [Hi Hf]. destruct (frac_bounds radix f Hr Hf) as [A _]. pose proof (int_value_bounds radix i Hr Hi) as B.
  assert (C : (0 <= inject_Z (int_value radix i))%Q) by (change 0%Q with (inject_Z 0); rewrite <- Zle_Qle; lia).
  unfold text_value. destruct neg; [rewrite Qabs_opp|]; apply Qabs_pos; lra.
Qed.
Lemma nearest_abs radix p v w w' : nearest radix p v w -> nearest radix p v w' -> (Qabs w == Qabs w')%Q.
Proof.
  intros (R & N) (R' & N'). destruct (N w' R') as [A B]. destruct (N' w R) as [A' B'].
  assert (E : (Qabs (w - v) == Qabs (w' - v))%Q) by (apply Qle_antisym; assumption).
  apply Qle_antisym; [apply B'; exact E|apply B; symmetry; exact E].
Qed.
Lemma grouped_nonnil s gs : grouped s gs -> 1 <= List.length s.
Proof. induction 1; rewrite ?app_length; lia. Qed.
Lemma grouped_unique s gs : grouped s gs -> forall gs', grouped s gs' -> gs = gs'.
Proof.
  induction 1 as [g H|s gs g G IH L]; intros gs' G'.
  - inversion G' as [|s0 gs0 g0 G0 L0]; subst; [reflexivity|]. rewrite app_length in H. pose proof (grouped_nonnil _ _ G0). lia.
  - inversion G' as [g1 H1|s0 gs0 g0 G0 L0 E]; subst.
    + rewrite app_length in H1. pose proof (grouped_nonnil _ _ G). lia.
    + assert (X : s0 = s /\ g0 = g).
      { apply (f_equal (@rev char)) in E. rewrite !rev_app_distr in E. 
        assert (K : rev g0 = rev g /\ rev s0 = rev s).
        { assert (Lr : List.length (rev g0) = List.length (rev g)) by (rewrite !rev_length; lia). clear - E Lr.
          revert Lr E. generalize (rev s0) (rev s). generalize (rev g0) (rev g). induction l as [|x l IH]; intros [|y k] a b Lr E; try discriminate Lr; [split; [reflexivity|exact E]|].
          injection E as -> E. injection Lr as Lr. destruct (IH k a b Lr E) as [-> ->]. auto. }
        destruct K as [K1 K2]. split; [rewrite <- (rev_involutive s0), K2; apply rev_involutive|rewrite <- (rev_involutive g0), K1; apply rev_involutive]. }
      destruct X as [-> ->]. f_equal. apply IH. exact G0.
Qed.

Lemma fraction_text_unique v s s' : fraction_text 10 v s -> fraction_text 10 v s' -> s = s'.
Proof.
  intros (n & d & E & G & T) (n' & d' & E' & G' & T').
  assert (n # d = n' # d').
  { apply canon_inj; [apply canon_gcd; exact G|apply canon_gcd; exact G'|]. rewrite <- E, <- E'. reflexivity. }
  injection H as <- <-. destruct T as [(D & T)|(D & sn & sd & T1 & T2 & ->)], T' as [(D' & T')|(D' & sn' & sd' & T1' & T2' & ->)]; try contradiction.
  - eapply integer_text_unique; eauto. lia.
  - rewrite (integer_text_unique 10 n sn sn'), (integer_text_unique 10 (Zpos d) sd sd'); auto; lia.
Qed.
Lemma result_text_unique a v s s' : (2 <= output_radix a)%N -> result_text a v s -> result_text a v s' -> s = s'.
Proof.
  intros Hr [(F & T)|(F & neg & ids & fds & gs & Hd & Hn & Hz & Ng & Nr & Len & G & ->)] [(F' & T')|(F' & neg' & ids' & fds' & gs' & Hd' & Hn' & Hz' & Ng' & Nr' & Len' & G' & ->)]; try congruence.
  - eapply fraction_text_unique; eauto.
  - assert (neg = neg') as <- by (destruct neg, neg'; auto; [symmetry|]; tauto).
    pose proof (nearest_abs _ _ _ _ _ Nr Nr') as E. rewrite !text_value_abs in E by assumption.
    destruct (text_parts _ _ _ _ _ Hr Hd Hd' E) as [Ei Ef].
    pose proof (proj1 (Forall_app _ _ _) Hd) as [Hi Hf]. pose proof (proj1 (Forall_app _ _ _) Hd') as [Hi' Hf'].
    assert (ids = ids') as <- by (eapply int_digits_unique; eauto).
    assert (fds = fds') as <-.
    { destruct Len as [(R & L & T)|(R & L)], Len' as [(R' & L' & T')|(R' & L')]; try contradiction.
      - destruct (Nat.le_ge_cases (List.length fds) (List.length fds')) as [K|K]; [eapply frac_shorter; eauto|symmetry; eapply frac_shorter; eauto; symmetry; exact Ef].
      - eapply frac_same_length; eauto. congruence. }
    rewrite (grouped_unique _ _ G _ G'). reflexivity.
Qed.

(** *** The program's text is it. *)
Lemma representable_dec radix p v : {representable radix p v} + {~ representable radix p v}.
Proof.
  set (q := Qred (v * inject_Z (Z.of_N radix ^ Z.of_N p))).
  assert (K : ratio_is_integer q = true <-> representable radix p v).
  { rewrite (canon_integer q (canon_Qred _)). unfold representable, q. split; intros (m & E); exists m; [rewrite <- E; symmetry; apply Qred_correct|rewrite Qred_correct; exact E]. }
  destruct (ratio_is_integer q); [left|right]; [tauto|intros H; apply K in H; discriminate H].
Qed.
Lemma representable_eq radix p v v' : (v == v')%Q -> representable radix p v -> representable radix p v'.
Proof. intros E (m & H). exists m. rewrite <- E. exact H. Qed.
Lemma nearest_eq radix p v v' w : (v == v')%Q -> nearest radix p v w -> nearest radix p v' w.
Proof. intros E (R & N). split; [exact R|]. intros u Hu. destruct (N u Hu) as [A B]. rewrite E in A, B. auto. Qed.
Lemma result_text_eq a v v' s : (v == v')%Q -> result_text a v s -> result_text a v' s.
Proof.
  intros E [(F & n & d & X & T)|(F & neg & ids & fds & gs & Hd & Hn & Hz & Ng & Nr & Len & G)]; [left|right].
  - split; [exact F|]. exists n, d. rewrite <- E. auto.
  - split; [exact F|]. exists neg, ids, fds, gs. split; [exact Hd|]. split; [exact Hn|]. split; [exact Hz|]. split; [rewrite <- E; exact Ng|].
    split; [eapply nearest_eq; eauto|]. split; [|exact G].
    destruct Len as [(R & L)|(R & L)]; [left|right]; (split; [|exact L]); [eapply representable_eq; eauto|].
    intros R'. apply R. eapply representable_eq; [symmetry; exact E|exact R'].
Qed.
Lemma format_decimal_text {E} a v : a_fractional a = false -> (2 <= output_radix a <= 16)%N ->
  exists text, format_result (E := E) a v = Ok text /\ result_text a v text.
Proof.
  intros F Hr. destruct (make_decimal_spec (E := E) v (output_radix a) (a_precision a) (a_upper a) Hr) as (ids & fds & neg & s & Hs & _ & Hd & Hneg & Hl & Hrep & Hnr & Hn).
  destruct Hd as (_ & Hd & Hne & Hz). destruct (insert_commas_grouped (spell (a_upper a) ids)) as (gs & G & J); [destruct ids; [contradiction|discriminate]|].
  eexists. split; [unfold format_result; rewrite F; exact (Hs (a_commas a))|].
  right. split; [exact F|]. exists neg, ids, fds, gs. repeat (split; [assumption|]). split; [|split; [exact G|rewrite J; reflexivity]].
  destruct (representable_dec (output_radix a) (a_precision a) v) as [R|R]; [left|right]; (split; [exact R|]); [|auto].
  split; [exact Hl|]. exact (proj2 (Hrep R)).
Qed.
