(** PropertiesEval.v -- the evaluation properties C14-C24. *)
From Verif Require Import Base Position Num TokenTypes Errors SavedData Variables Operations Token SyntaxTree.
From Verif Require Import SpecLex SpecGrammar SpecEval ProofsNum ProofsPower ProofsParse2 ProofsEval ProofsEval2 ProofsEval3.
From Coq Require Import Qabs Qpower String Lqa.
Local Open Scope Q_scope.

(** Typed expressions for the examples: default settings, a session without database. *)
Definition settings (precision extra : N) : args := mkArgs 10 false None precision extra false false false.
Definition memory : env := mkEnv (Some [(lit "$x", 3 # 4)]) None.
Definition evaluated (pr : profile) (a : args) (line : String.string) (r : outcome failure Q) : Prop :=
  exists ts t, tokenize (lit line) (a_radix a) = Ok (PTokens ts) /\ syntax_tree_new ts = Ok t /\
    snd (exec pr a (st_root t) memory) = r.
Ltac evaluate := eexists _, _; split; [vm_compute; reflexivity|split; [vm_compute; reflexivity|vm_compute; reflexivity]].

(** The premises used below hold of every typed expression and of the initial state. *)
Theorem C14_literals : forall s radix ts t, (2 <= radix <= 16)%N ->
  tokenize s radix = Ok (PTokens ts) -> syntax_tree_new ts = Ok t -> literals_ok (st_root t).
Proof. exact typed_literals. Qed.
Print Assumptions C14_literals.
Example C14_premises : settings_ok (settings 5 3) /\ env_ok memory /\ no_faults memory /\ digits_kept Debug (settings 5 3) = Some 9%N.
Proof.
  split; [split; [reflexivity|split; [reflexivity|discriminate]]|]. split; [|split; [intros sd E0; discriminate E0|reflexivity]].
  split; [|intros sd E0; discriminate E0]. intros m x v E. injection E as <-. 
  change (vs_get _ x) with (if str_eqb x (lit "$x") then Some (3 # 4) else None). destruct (str_eqb x (lit "$x")); intros E; [|discriminate E]. injection E as <-. reflexivity.
Qed.

(** C14. The value of an expression is its exact rational value, in lowest terms, whenever it has
    one by the rules of arithmetic: *)
Theorem C14_exact_value : forall pr a k n s q, settings_ok a -> digits_kept pr a = Some k ->
  env_ok s -> no_faults s -> literals_ok n ->
  meaning (var_result s) power_exact n (Value q) ->
  exists s' v, exec pr a n s = (s', Ok v) /\ v == q /\ canon v.
Proof.
  intros pr a k n s q Ha Hk Hs Hf Hn M. destruct (exec_exact pr a k n s _ Ha Hk Hs Hf Hn M) as (s' & o & E & A).
  destruct o as [v| |]; cbn in A; try contradiction. exists s', v. split; [exact E|]. split; [exact A|].
  eapply exec_meaning; eauto.
Qed.
Print Assumptions C14_exact_value.
(** without powers this does not depend on the precision settings at all; *)
Theorem C14_exact_value_any_precision : forall pr a n s q, settings_ok a ->
  env_ok s -> no_faults s -> literals_ok n ->
  meaning (var_result s) (fun _ _ _ _ => False) n (Value q) ->
  exists s' v, exec pr a n s = (s', Ok v) /\ v == q /\ canon v.
Proof.
  intros pr a n s q Ha Hs Hf Hn M. destruct (exec_no_power pr a n s _ Ha Hs Hf Hn M) as (s' & o & E & A).
  destruct o as [v| |]; cbn in A; try contradiction. exists s', v. split; [exact E|]. split; [exact A|].
  eapply exec_meaning; eauto.
Qed.
Print Assumptions C14_exact_value_any_precision.
(** conversely every value, error or crash the evaluator produces is one of the rules (with the
    roots approximated as the settings say), from any state and with any database failures. *)
Theorem C14_sound : forall pr a n s s' o, settings_ok a -> env_ok s -> literals_ok n ->
  exec pr a n s = (s', o) ->
  meaning (var_result s) (power_with pr a) n (result_of o) /\ (forall v, o = Ok v -> canon v) /\ env_ok s'.
Proof. intros pr a n s s' o Ha Hs Hn E. destruct (exec_meaning pr a n s s' o Ha Hs Hn E) as (_ & O & M & C). auto. Qed.
Print Assumptions C14_sound.
(** The rules give at most one result when no root is approximated. *)
Theorem C14_meaning_unique : forall s n r r', env_ok s -> no_faults s ->
  meaning (var_result s) power_exact n r -> meaning (var_result s) power_exact n r' -> same_result r r'.
Proof.
  intros s n r r' Hs Hf M M'. assert (HL : forall x p r r', var_result s x p r -> var_result s x p r' -> same_result r r')
    by (intros; eapply var_result_det; eauto).
  refine (proj1 (meaning_det _ _ power_exact power_exact HL _) n r M r' M').
  intros p x y x' y' r0 r1 Ex Ey P P'. eapply (power_det 1); [exact Ex|exact Ey|exact P|left; exact P'].
Qed.
Print Assumptions C14_meaning_unique.
Example C14_example : evaluated Debug (settings 5 3) "1/3 + abs(2-$x*4)^-2 - max(1,-7%4)*0.5" (Ok (5 # 6)).
Proof. evaluate. Qed.
Example C14_example_meaning : exists ts t, tokenize (lit "1/3-$x*2") 10 = Ok (PTokens ts) /\ syntax_tree_new ts = Ok t /\
  literals_ok (st_root t) /\ meaning (var_result memory) (fun _ _ _ _ => False) (st_root t) (Value (-7 # 6)).
Proof.
  eexists _, _. split; [vm_compute; reflexivity|]. split; [vm_compute; reflexivity|]. cbn [st_root].
  split; [repeat constructor|].
  eapply m_binary; [|eapply m_binary; [| |]|].
  - eapply m_binary; [apply m_number; reflexivity|apply m_number; reflexivity|].
    apply (b_divide _ _ _ _ (1 # 3)); [discriminate|reflexivity].
  - apply m_variable. eapply vr_memory; reflexivity.
  - apply m_number. reflexivity.
  - apply b_multiply. reflexivity.
  - apply b_subtract. reflexivity.
Qed.

(** C15. A division whose operands have values is an error at the operator iff the divisor is 0,
    and otherwise the exact quotient; *)
Theorem C15_division : forall pr a p l r s s1 s2 x y,
  exec pr a l s = (s1, Ok x) -> exec pr a r s1 = (s2, Ok y) ->
  (exec pr a (NBin Divide p l r) s = (s2, Err (division_by_zero p)) <-> y == 0) /\
  (~ y == 0 -> exists v, exec pr a (NBin Divide p l r) s = (s2, Ok v) /\ v * y == x /\ canon v).
Proof.
  intros pr a p l r s s1 s2 x y E1 E2. rewrite (exec_bin_val pr a Divide p l r s s1 s2 x y E1 E2). cbn [exec_binary].
  destruct (Z.eqb (Qnum y) 0) eqn:Z0.
  - apply num_zero in Z0. split; [tauto|contradiction].
  - apply num_nonzero in Z0. rewrite ratio_div_ok by exact Z0. split; [split; [discriminate|contradiction]|].
    intros _. eexists. split; [reflexivity|]. split; [rewrite Qred_correct; field; exact Z0|apply canon_Qred].
Qed.
Print Assumptions C15_division.
(** the operands are evaluated left to right and the first that fails decides; *)
Theorem C15_first_error : forall pr a o p l r s s1 e,
  (exec pr a l s = (s1, Err e) -> exec pr a (NBin o p l r) s = (s1, Err e)) /\
  (forall x s2, exec pr a l s = (s2, Ok x) -> exec pr a r s2 = (s1, Err e) -> exec pr a (NBin o p l r) s = (s1, Err e)).
Proof.
  intros pr a o p l r s s1 e. split.
  - intros E. cbn [exec]. rewrite E. reflexivity.
  - intros x s2 E E2. cbn [exec]. rewrite E. cbn [then_do]. rewrite E2. reflexivity.
Qed.
Print Assumptions C15_first_error.
(** and a division-by-zero error always points at a division of the expression whose operands have
    values, the divisor being 0. *)
Theorem C15_error_origin : forall pr a n s s' p, settings_ok a -> env_ok s -> literals_ok n ->
  exec pr a n s = (s', Err (division_by_zero p)) ->
  exists l r x y, subnode (NBin Divide p l r) n /\
    meaning (var_result s) (power_with pr a) l (Value x) /\
    meaning (var_result s) (power_with pr a) r (Value y) /\ y == 0.
Proof.
  intros pr a n s s' p Ha Hs Hn E. destruct (exec_meaning pr a n s s' _ Ha Hs Hn E) as (_ & _ & M & _).
  eapply division_origin. exact M.
Qed.
Print Assumptions C15_error_origin.
Example C15_example : evaluated Debug (settings 5 3) "(3/(2-2)) + (4/0)" (Err (division_by_zero (mkPos 2 1))).
Proof. evaluate. Qed.

(** C16. Modulus by a nonzero number is the remainder of the division truncated towards zero. *)
Theorem C16_modulus_partial : forall pr a p l r s s1 s2 x y, 
  exec pr a l s = (s1, Ok x) -> exec pr a r s1 = (s2, Ok y) -> ~ y == 0 ->
  exists v, exec pr a (NBin Modulus p l r) s = (s2, Ok v) /\ remainder x y v /\ canon v.
Proof.
  intros pr a p l r s s1 s2 x y E1 E2 Hy. rewrite (exec_bin_val pr a Modulus p l r s s1 s2 x y E1 E2). cbn [exec_binary].
  destruct (ratio_rem_spec (F := failure) x y Hy) as (v & -> & C & R). eauto.
Qed.
Print Assumptions C16_modulus_partial.
Theorem C16_remainder_unique : forall x y r r', remainder x y r -> remainder x y r' -> r == r'.
Proof. intros x y r r'. eapply remainder_unique; try exact (fun _ _ _ => True); reflexivity. Qed.
Print Assumptions C16_remainder_unique.
(** But modulus by zero is not reported as an error: it crashes, always. *)
Theorem C16_zero_crashes : forall pr a p l r s s1 s2 x y,
  exec pr a l s = (s1, Ok x) -> exec pr a r s1 = (s2, Ok y) -> y == 0 ->
  exec pr a (NBin Modulus p l r) s = (s2, Panic DivideByZero).
Proof.
  intros pr a p l r s s1 s2 x y E1 E2 Hy. rewrite (exec_bin_val pr a Modulus p l r s s1 s2 x y E1 E2). cbn [exec_binary].
  apply num_zero in Hy. unfold ratio_rem. rewrite Hy. reflexivity.
Qed.
Print Assumptions C16_zero_crashes.
Theorem C16_modulus_by_zero_refuted : exists pr a, evaluated pr a "1 % 0" (Panic DivideByZero).
Proof. exists Debug, (settings 5 3). evaluate. Qed.
Print Assumptions C16_modulus_by_zero_refuted.
Example C16_example : evaluated Debug (settings 5 3) "(-7.5) % 2" (Ok (-3 # 2)) /\ remainder (-15 # 2) 2 (-3 # 2).
Proof. split; [evaluate|]. split; [exists (-3)%Z; reflexivity|]. split; [reflexivity|]. right; right; split; reflexivity. Qed.

(** C17. max and min of one or more arguments is one of their values and bounds all of them;
    without arguments it is an error at the function name. *)
Inductive evaluate_to (pr : profile) (a : args) : env -> list node -> list Q -> env -> Prop :=
| et_nil : forall s, evaluate_to pr a s [] [] s
| et_cons : forall s s1 s2 n ns q qs, exec pr a n s = (s1, Ok q) -> evaluate_to pr a s1 ns qs s2 ->
    evaluate_to pr a s (n :: ns) (q :: qs) s2.
Lemma evaluate_to_list pr a s ns qs s' : evaluate_to pr a s ns qs s' -> ProofsParse3.exec_list pr a ns s = (s', Ok qs).
Proof.
  induction 1 as [|s s1 s2 n ns q qs E _ IH]; [reflexivity|].
  rewrite ProofsParse3.exec_list_cons, E. cbn [then_do]. rewrite IH. reflexivity.
Qed.
Theorem C17_max_min : forall pr a f p ns w s qs s', evaluate_to pr a s ns qs s' -> ns <> [] ->
  exists v, exec pr a (NFun f p ns w) s = (s', Ok v) /\ In v qs /\
    forall q, In q qs -> match f with FMax => q <= v | FMin => v <= q end.
Proof.
  intros pr a f p ns w s qs s' E Hne. rewrite ProofsParse3.exec_fun, (evaluate_to_list _ _ _ _ _ _ E). cbn [then_do].
  inversion E; subst; [contradiction|]. cbn [exec_function].
  match goal with |- context [fold_left _ ?l ?x] => destruct (fold_extreme f l x) as [I B] end.
  eexists. split; [reflexivity|]. split; [exact I|exact B].
Qed.
Print Assumptions C17_max_min.
Theorem C17_no_arguments : forall pr a f p w s,
  exec pr a (NFun f p [] w) s = (s, Err (no_arguments f p)).
Proof. reflexivity. Qed.
Print Assumptions C17_no_arguments.
Example C17_example : evaluated Debug (settings 5 3) "max(1,$x,3/2,min 1.25) - min(4,-2)" (Ok (7 # 2)) /\
  evaluated Debug (settings 5 3) "1 + max()" (Err (no_arguments FMax (mkPos 4 3))).
Proof. split; evaluate. Qed.

(** C18. Evaluation crashes only at a modulus by zero, an inverse of zero, or a root of a number of
    magnitude below one; everything else gives a value or an error. *)
Theorem C18_crash_sites_partial : forall pr a k n s s' q, settings_ok a -> digits_kept pr a = Some k ->
  env_ok s -> literals_ok n -> exec pr a n s = (s', Panic q) ->
  exists m x y, subnode m n /\
    ((exists p l r, m = NBin Modulus p l r /\ y == 0 /\
        meaning (var_result s) (power_with pr a) l (Value x) /\ meaning (var_result s) (power_with pr a) r (Value y)) \/
     (exists p l r, m = NBin Exponent p l r /\ crashing_power x y /\
        meaning (var_result s) (power_with pr a) l (Value x) /\ meaning (var_result s) (power_with pr a) r (Value y)) \/
     (exists p m', m = NUn SquareRoot p m' /\ crashing_power x (1 # 2) /\
        meaning (var_result s) (power_with pr a) m' (Value x))).
Proof.
  intros pr a k n s s' q Ha Hk Hs Hn E. destruct (exec_meaning pr a n s s' _ Ha Hs Hn E) as (_ & _ & M & _).
  eapply crash_origin; eauto.
Qed.
Print Assumptions C18_crash_sites_partial.
(** These do crash: *)
Theorem C18_crashing_powers : forall pr a k p l r s s1 s2 x y, settings_ok a -> digits_kept pr a = Some k ->
  env_ok s -> literals_ok l -> literals_ok r -> exec pr a l s = (s1, Ok x) -> exec pr a r s1 = (s2, Ok y) ->
  (crashing_power x y <-> exists q, exec pr a (NBin Exponent p l r) s = (s2, Panic q)).
Proof.
  intros pr a k p l r s s1 s2 x y Ha Hk Hs Hl Hr E1 E2.
  destruct (operands_canon pr a l r s s1 s2 x y Ha Hs Hl Hr E1 E2) as [Cx Cy].
  rewrite (exec_bin_val pr a Exponent p l r s s1 s2 x y E1 E2). cbn [exec_binary]. split.
  - intros H. assert (P : power_exact p x y Crashes).
    { destruct H as [[A B]|(n & d & F & X & S & O)]; [apply pe_zero_inverse; assumption|eapply pe_small; eauto]. }
    pose proof (exec_power_exact pr a k p x y _ Ha Hk Cx Cy P) as A.
    destruct (exec_power pr a p x y); cbn in A; try contradiction. eauto.
  - intros (q & E). apply pair_equal_spec in E as [_ E]. destruct (exec_power_sound pr a Ha p x y Cx Cy) as [P _].
    rewrite E in P. cbn [result_of] in P. apply power_with_crash in P as [P|P]; [exact P|congruence].
Qed.
Print Assumptions C18_crashing_powers.
(** so "no expression crashes the calculator" is false: *)
Theorem C18_no_crash_refuted :
  evaluated Debug (settings 5 3) "1%0" (Panic DivideByZero) /\
  evaluated Debug (settings 5 3) "0^-1" (Panic DivideByZero) /\
  evaluated Debug (settings 5 3) "sqrt 0.5" (Panic DivideByZero) /\
  evaluated Release (settings 5 3) "sqrt 0.5" (Panic DivideByZero).
Proof. split; [evaluate|]. split; [evaluate|]. split; evaluate. Qed.
Print Assumptions C18_no_crash_refuted.
Example C18_example : crashing_power (1 # 2) (1 # 2) /\ crashing_power 0 (-1).
Proof.
  split.
  - right. exists 1%Z, 2%positive. split; [split; [reflexivity|split; [reflexivity|reflexivity]]|].
    split; [discriminate|]. split; [reflexivity|]. left. reflexivity.
  - left. split; reflexivity.
Qed.

(** C19. Integer powers are exact at any precision. *)
Theorem C19_integer_powers : forall pr a k p l r s s1 s2 x y z, settings_ok a -> digits_kept pr a = Some k ->
  env_ok s -> literals_ok l -> literals_ok r -> exec pr a l s = (s1, Ok x) -> exec pr a r s1 = (s2, Ok y) ->
  y == inject_Z z -> (0 <= z)%Z \/ ~ x == 0 ->
  exists v, exec pr a (NBin Exponent p l r) s = (s2, Ok v) /\ v == x ^ z /\ canon v.
Proof.
  intros pr a k p l r s s1 s2 x y z Ha Hk Hs Hl Hr E1 E2 Hy Hz.
  destruct (operands_canon pr a l r s s1 s2 x y Ha Hs Hl Hr E1 E2) as [Cx Cy].
  rewrite (exec_bin_val pr a Exponent p l r s s1 s2 x y E1 E2). cbn [exec_binary].
  assert (P : power_exact p x y (Value (x ^ z))) by (eapply pe_integer; [exact Hy|exact Hz|reflexivity]).
  pose proof (exec_power_exact pr a k p x y _ Ha Hk Cx Cy P) as A.
  destruct (exec_power_sound pr a Ha p x y Cx Cy) as [_ C].
  destruct (exec_power pr a p x y) as [v| |]; cbn in A; try contradiction. exists v. split; [reflexivity|]. split; [exact A|]. apply C. reflexivity.
Qed.
Print Assumptions C19_integer_powers.
(** A release build keeps some number of digits at any setting, so the premise is void there; a
    debug build needs precision + extra precision <= 254 (see C24). *)
Theorem C19_every_precision : forall a, (exists k, digits_kept Release a = Some k) /\
  ((a_precision a + a_extra_precision a <= 254)%N <-> exists k, digits_kept Debug a = Some k).
Proof.
  intros a. unfold digits_kept. destruct (N.ltb_spec (a_precision a + a_extra_precision a + 1) 256).
  - split; [eauto|]. split; [eauto|lia].
  - split; [eauto|]. split; [lia|]. intros (k & E). discriminate.
Qed.
Print Assumptions C19_every_precision.
Example C19_example : evaluated Debug (settings 0 0) "(-2/3)^-3 + 0^0" (Ok (-19 # 8)).
Proof. evaluate. Qed.

(** C20. Exact integer roots. *)
Theorem C20_exact_roots : forall pr a k p l r s s1 s2 x y n d j, settings_ok a -> digits_kept pr a = Some k ->
  env_ok s -> literals_ok l -> literals_ok r -> exec pr a l s = (s1, Ok x) -> exec pr a r s1 = (s2, Ok y) ->
  fraction y n d -> power_exists x n -> inject_Z j ^ Zpos d == x ^ n -> (0 <= j)%Z \/ Z.odd (Zpos d) = true ->
  exec pr a (NBin Exponent p l r) s = (s2, Ok (j # 1)).
Proof.
  intros pr a k p l r s s1 s2 x y n d j Ha Hk Hs Hl Hr E1 E2 Hf Hx Hj Ho.
  destruct (operands_canon pr a l r s s1 s2 x y Ha Hs Hl Hr E1 E2) as [Cx Cy].
  rewrite (exec_bin_val pr a Exponent p l r s s1 s2 x y E1 E2). cbn [exec_binary].
  assert (P : power_exact p x y (Value (inject_Z j))) by (eapply pe_root; eauto; reflexivity).
  pose proof (exec_power_exact pr a k p x y _ Ha Hk Cx Cy P) as A.
  destruct (exec_power_sound pr a Ha p x y Cx Cy) as [_ C].
  destruct (exec_power pr a p x y) as [v| |]; cbn in A; try contradiction.
  f_equal. f_equal. apply canon_inj; [apply C; reflexivity|apply canon_int|exact A].
Qed.
Print Assumptions C20_exact_roots.
Theorem C20_exact_sqrt : forall pr a k p n s s1 x j, settings_ok a -> digits_kept pr a = Some k ->
  env_ok s -> literals_ok n -> exec pr a n s = (s1, Ok x) -> (0 <= j)%Z -> inject_Z j * inject_Z j == x ->
  exec pr a (NUn SquareRoot p n) s = (s1, Ok (j # 1)).
Proof.
  intros pr a k p n s s1 x j Ha Hk Hs Hn E Hj Hx.
  assert (Cx : canon x) by (eapply exec_meaning; eauto).
  rewrite (exec_un_val pr a SquareRoot p n s s1 x E). cbn [exec_unary].
  assert (P : power_exact p x (1 # 2) (Value (inject_Z j))).
  { apply (pe_root _ _ _ 1 2 j); [split; [reflexivity|split; reflexivity]|left; lia| |left; exact Hj|reflexivity].
    rewrite Qpower_1_r, <- Hx. reflexivity. }
  pose proof (exec_power_exact pr a k p x (1 # 2) _ Ha Hk Cx eq_refl P) as A.
  destruct (exec_power_sound pr a Ha p x (1 # 2) Cx eq_refl) as [_ C].
  destruct (exec_power pr a p x (1 # 2)) as [v| |]; cbn in A; try contradiction.
  f_equal. f_equal. apply canon_inj; [apply C; reflexivity|apply canon_int|exact A].
Qed.
Print Assumptions C20_exact_sqrt.
Example C20_example : evaluated Debug (settings 0 0) "sqrt 144 - (-27)^(1/3) + 8^(2/3)" (Ok 19).
Proof. evaluate. Qed.

(** C21. A root that is not an integer is returned rounded away from zero, and it is within one unit of the
    last kept digit of the true root if [2 d] units are at most 1 (always for square roots), and
    within [d - 1] units in general.  [root_between t d lo hi] says that the [d]-th root of [t] lies
    between [lo] and [hi]. *)
Theorem C21_root_accuracy_partial : forall pr a k p l r s s1 s2 x y n d v, settings_ok a -> digits_kept pr a = Some k ->
  env_ok s -> literals_ok l -> literals_ok r -> exec pr a l s = (s1, Ok x) -> exec pr a r s1 = (s2, Ok y) ->
  exec pr a (NBin Exponent p l r) s = (s2, Ok v) ->
  fraction y n d -> (forall j, ~ inject_Z j ^ Zpos d == x ^ n) ->
  let unit := tolerance (a_radix a) k in
  (0 < v <-> 0 < x ^ n) /\
  root_between (Qabs (x ^ n)) d (Qabs v - inject_Z (Zpos d - 1) * unit) (Qabs v) /\
  (2 * inject_Z (Zpos d) * unit <= 1 -> root_between (Qabs (x ^ n)) d (Qabs v - unit) (Qabs v)).
Proof.
  intros pr a k p l r s s1 s2 x y n d v Ha Hk Hs Hl Hr E1 E2 E Hf Hno unit.
  destruct (operands_canon pr a l r s s1 s2 x y Ha Hs Hl Hr E1 E2) as [Cx Cy].
  rewrite (exec_bin_val pr a Exponent p l r s s1 s2 x y E1 E2) in E. apply pair_equal_spec in E as [_ E]. cbn [exec_binary] in E.
  destruct (exec_power_sound pr a Ha p x y Cx Cy) as [P _]. rewrite E in P. unfold power_with in P. rewrite Hk in P.
  destruct P as [P|(q & Eq & n' & d' & Hf' & Hl' & _ & _ & R)].
  - exfalso. inversion P; subst.
    + eapply fraction_not_integer; [reflexivity|exact Hf|eassumption].
    + match goal with F : fraction y ?n' ?d' |- _ => destruct (fraction_unique _ _ _ _ _ _ (Qeq_refl y) Hf F) as [<- <-] end. eapply Hno; eauto.
  - injection Eq as <-. destruct (fraction_unique _ _ _ _ _ _ (Qeq_refl y) Hf Hf') as [<- <-]. exact R.
Qed.
Print Assumptions C21_root_accuracy_partial.
Theorem C21_sqrt_accuracy : forall pr a k p n s s1 x v, settings_ok a -> digits_kept pr a = Some k ->
  env_ok s -> literals_ok n -> exec pr a n s = (s1, Ok x) -> exec pr a (NUn SquareRoot p n) s = (s1, Ok v) ->
  let unit := tolerance (a_radix a) k in
  0 <= v /\ x <= v * v /\ (v < unit \/ (v - unit) * (v - unit) <= x).
Proof.
  intros pr a k p n s s1 x v Ha Hk Hs Hn E1 E unit.
  assert (Cx : canon x) by (eapply exec_meaning; eauto).
  rewrite (exec_un_val pr a SquareRoot p n s s1 x E1) in E. apply pair_equal_spec in E as [_ E]. cbn [exec_unary] in E.
  destruct (exec_power_sound pr a Ha p x (1 # 2) Cx eq_refl) as [P _]. rewrite E in P. unfold power_with in P. rewrite Hk in P.
  assert (Hf : fraction (1 # 2) 1 2) by (split; [reflexivity|split; reflexivity]).
  assert (U : 0 < unit) by reflexivity.
  assert (S2 : forall z, z ^ 2 == z * z) by (intros z; reflexivity).
  destruct P as [P|(q & Eq & n' & d' & Hf' & Hl' & Ho & _ & R)].
  - inversion P; subst.
    + exfalso. eapply fraction_not_integer; [reflexivity|exact Hf|eassumption].
    + match goal with F : fraction _ ?n' ?d' |- _ => destruct (fraction_unique _ _ _ _ _ _ (Qeq_refl _) Hf F) as [<- <-] end.
      rewrite Qpower_1_r in *. match goal with H : inject_Z ?j ^ 2 == x |- _ => rewrite S2 in H; rename H into Hj end.
      match goal with H : (0 <= ?j)%Z \/ _ |- _ => destruct H as [Hp|Hp]; [|discriminate] end.
      match goal with H : v == inject_Z ?j |- _ => rename H into Hv; assert (0 <= inject_Z j) by (unfold Qle; simpl; lia) end.
      rewrite Hv. split; [assumption|]. rewrite <- Hj. clear Hv Hj. revert H. generalize (inject_Z k0) as z. clear k0 Hp. intros z H.
      split; [apply Qle_refl|]. destruct (Qlt_le_dec z unit); [left; assumption|right; nra].
  - injection Eq as <-. destruct (fraction_unique _ _ _ _ _ _ (Qeq_refl _) Hf Hf') as [<- <-].
    rewrite Qpower_1_r in *. destruct Ho as [Ho|Ho]; [|discriminate]. destruct R as (R1 & (R2 & R3 & R4) & _).
    assert (0 < v) by (apply R1; exact Ho). rewrite (Qabs_pos x) in * by lra. rewrite (Qabs_pos v) in * by lra.
    rewrite S2 in R4. change (inject_Z (2 - 1)) with 1 in R2. rewrite S2 in R2.
    fold unit in R2. clearbody unit. clear - H R2 R4. split; [lra|]. split; [exact R4|].
    assert (W : v - 1 * unit == v - unit) by ring. rewrite W in R2. destruct R2 as [R2|R2]; [left; lra|right; exact R2].
Qed.
Print Assumptions C21_sqrt_accuracy.
(** The English claim (error at most one unit for every root) is false: in radix 2 with
    precision 0, where one unit is 1/2, the sixth root of (3/2)^6 is returned as 2.28..., more than one unit
    above the true root 3/2. *)
Theorem C21_accuracy_refuted : exists a v ts t p l r x y,
  a = mkArgs 2 false None 0 0 false false false /\
  tokenize (lit "(1.1^110)^(1/110)") 2 = Ok (PTokens ts) /\ syntax_tree_new ts = Ok t /\
  st_root t = NBin Exponent p l r /\ snd (exec Debug a l memory) = Ok x /\ snd (exec Debug a r memory) = Ok y /\
  x == (3 # 2) ^ 6 /\ y == 1 # 6 /\
  snd (exec Debug a (st_root t) memory) = Ok v /\
  digits_kept Debug a = Some 1%N /\ tolerance 2 1 == 1 # 2 /\
  (1 # 2) < v - (3 # 2).
Proof.
  do 9 eexists. split; [reflexivity|]. split; [vm_compute; reflexivity|]. split; [vm_compute; reflexivity|].
  split; [vm_compute; reflexivity|]. split; [vm_compute; reflexivity|]. split; [vm_compute; reflexivity|].
  split; [vm_compute; reflexivity|]. split; [vm_compute; reflexivity|]. split; [vm_compute; reflexivity|].
  split; [reflexivity|]. split; [reflexivity|vm_compute; reflexivity].
Qed.
Print Assumptions C21_accuracy_refuted.
Example C21_example : exists v, evaluated Debug (settings 1 1) "sqrt 2" (Ok v) /\
  2 <= v * v /\ (v - (1 # 1000)) * (v - (1 # 1000)) <= 2 /\
  (2 * inject_Z (Zpos 2) * tolerance 10 3 <= 1)%Q.
Proof. eexists. split; [evaluate|]. split; [|split]; vm_compute; discriminate. Qed.

(** C22. The two loops of root extraction stop: evaluation never runs out of the model's step
    bounds, whatever the expression, the state and the settings. *)
Theorem C22_roots_terminate : forall pr a n s s', settings_ok a -> env_ok s -> literals_ok n ->
  exec pr a n s <> (s', Panic OutOfFuel).
Proof.
  intros pr a n s s' Ha Hs Hn E. destruct (exec_panics pr a n Ha Hn s s' _ Hs E) as [H|[H _]]; discriminate.
Qed.
Print Assumptions C22_roots_terminate.
(** A power that crashes is one of the powers that crash the program itself: no step bound of the model shows.
    C102 counts the rounds. *)
Theorem C22_powers_crash_only_themselves : forall x y p pr a k, settings_ok a -> digits_kept pr a = Some k -> canon x -> canon y ->
  forall q, exec_power pr a p x y = Panic q -> q = DivideByZero /\ crashing_power x y.
Proof.
  intros x y p pr a k Ha Hk Cx Cy q E.
  destruct (exec_power_panic pr a p x y q Ha Cx Cy E) as [H|[_ H]]; [|congruence]. split; [exact H|].
  destruct (exec_power_sound pr a Ha p x y Cx Cy) as [P _]. rewrite E in P. apply power_with_crash in P as [P|P]; [exact P|congruence].
Qed.
Print Assumptions C22_powers_crash_only_themselves.
Example C22_example : exists v, evaluated Debug (settings 3 0) "123456789 ^ (2/3)" (Ok v).
Proof. eexists. evaluate. Qed.

(** C23. A power is an imaginary-result error iff it is a root of even degree of a negative number
    (exponent reduced to lowest terms); *)
Theorem C23_imaginary_iff : forall pr a k p l r s s1 s2 x y, settings_ok a -> digits_kept pr a = Some k ->
  env_ok s -> literals_ok l -> literals_ok r -> exec pr a l s = (s1, Ok x) -> exec pr a r s1 = (s2, Ok y) ->
  (exec pr a (NBin Exponent p l r) s = (s2, Err (imaginary_result p)) <-> imaginary x y).
Proof.
  intros pr a k p l r s s1 s2 x y Ha Hk Hs Hl Hr E1 E2.
  destruct (operands_canon pr a l r s s1 s2 x y Ha Hs Hl Hr E1 E2) as [Cx Cy].
  rewrite (exec_bin_val pr a Exponent p l r s s1 s2 x y E1 E2). cbn [exec_binary]. split.
  - intros E. apply pair_equal_spec in E as [_ E]. destruct (exec_power_sound pr a Ha p x y Cx Cy) as [P _].
    rewrite E in P. cbn [result_of] in P. apply power_with_fails in P as [_ P]. exact P.
  - intros (n & d & F & X & N & D). f_equal.
    assert (P : power_exact p x y (Fails (imaginary_result p))) by (eapply pe_imaginary; eauto).
    pose proof (exec_power_exact pr a k p x y _ Ha Hk Cx Cy P) as A.
    destruct (exec_power pr a p x y); cbn [agrees] in A; try contradiction. congruence.
Qed.
Print Assumptions C23_imaginary_iff.
Theorem C23_sqrt : forall pr a k p n s s1 x, settings_ok a -> digits_kept pr a = Some k ->
  env_ok s -> literals_ok n -> exec pr a n s = (s1, Ok x) ->
  (exec pr a (NUn SquareRoot p n) s = (s1, Err (imaginary_result p)) <-> x < 0).
Proof.
  intros pr a k p n s s1 x Ha Hk Hs Hn E1.
  assert (Cx : canon x) by (eapply exec_meaning; eauto).
  rewrite (exec_un_val pr a SquareRoot p n s s1 x E1). cbn [exec_unary].
  assert (Hf : fraction (1 # 2) 1 2) by (split; [reflexivity|split; reflexivity]). split.
  - intros E. apply pair_equal_spec in E as [_ E]. destruct (exec_power_sound pr a Ha p x (1 # 2) Cx eq_refl) as [P _].
    rewrite E in P. cbn [result_of] in P. apply power_with_fails in P as [_ (n' & d' & F & _ & N & _)].
    destruct (fraction_unique _ _ _ _ _ _ (Qeq_refl _) Hf F) as [<- <-]. rewrite Qpower_1_r in N. exact N.
  - intros Hx. f_equal.
    assert (P : power_exact p x (1 # 2) (Fails (imaginary_result p))).
    { apply (pe_imaginary _ _ _ 1 2); [exact Hf|left; lia|rewrite Qpower_1_r; exact Hx|reflexivity]. }
    pose proof (exec_power_exact pr a k p x (1 # 2) _ Ha Hk Cx eq_refl P) as A.
    destruct (exec_power pr a p x (1 # 2)); cbn [agrees] in A; try contradiction. congruence.
Qed.
Print Assumptions C23_sqrt.
(** and such an error is always reported at a power or square root that is not real. *)
Theorem C23_error_origin : forall pr a n s s' p, settings_ok a -> env_ok s -> literals_ok n ->
  exec pr a n s = (s', Err (imaginary_result p)) ->
  exists x y, imaginary x y /\
    ((exists l r, subnode (NBin Exponent p l r) n /\
      meaning (var_result s) (power_with pr a) l (Value x) /\ meaning (var_result s) (power_with pr a) r (Value y)) \/
     (exists m, y == 1 # 2 /\ subnode (NUn SquareRoot p m) n /\ meaning (var_result s) (power_with pr a) m (Value x))).
Proof.
  intros pr a n s s' p Ha Hs Hn E. destruct (exec_meaning pr a n s s' _ Ha Hs Hn E) as (_ & _ & M & _).
  eapply imaginary_origin. exact M.
Qed.
Print Assumptions C23_error_origin.
Example C23_example :
  evaluated Debug (settings 5 3) "1 + (-4)^(3/6)" (Err (imaginary_result (mkPos 8 1))) /\
  evaluated Debug (settings 5 3) "(-8)^(2/6)" (Ok (-2)).
Proof. split; evaluate. Qed.

(** C24. Precision settings whose sum is at most 254 give exactly that many kept digits (plus the
    guard digit). *)
Theorem C24_usable_precision_partial : forall pr a p x y, settings_ok a ->
  (a_precision a + a_extra_precision a <= 254)%N -> canon x -> canon y ->
  let unit := tolerance (a_radix a) (a_precision a + a_extra_precision a + 1) in
  power_result unit p x y (result_of (exec_power pr a p x y)).
Proof.
  intros pr a p x y Ha H Cx Cy unit. destruct (exec_power_sound pr a Ha p x y Cx Cy) as [P _].
  unfold power_with, digits_kept in P. destruct (N.ltb_spec (a_precision a + a_extra_precision a + 1) 256); [exact P|lia].
Qed.
Print Assumptions C24_usable_precision_partial.
(** With sum 255, which also fits in 8 bits, every power crashes a debug build, and a release
    build keeps no digit at all. *)
Theorem C24_precision_255_refuted : forall a p x y, settings_ok a -> canon x -> canon y ->
  (a_precision a + a_extra_precision a = 255)%N ->
  (exists q, exec_power Debug a p x y = Panic q) /\ digits_kept Release a = Some 0%N.
Proof.
  intros a p x y Ha Cx Cy H. split.
  - destruct (exec_power_sound Debug a Ha p x y Cx Cy) as [P _]. unfold power_with, digits_kept in P. rewrite H in P.
    change (N.ltb (255 + 1) 256) with false in P. cbv iota beta zeta in P.
    destruct (exec_power Debug a p x y); try discriminate. eauto.
  - unfold digits_kept. rewrite H. reflexivity.
Qed.
Print Assumptions C24_precision_255_refuted.
Example C24_example : evaluated Debug (settings 200 55) "2^2" (Panic ArithOverflow) /\
  evaluated Release (settings 200 55) "sqrt 2" (Ok (3 # 2)) /\
  evaluated Debug (settings 0 254) "2^2" (Ok 4).
Proof. split; [evaluate|]. split; evaluate. Qed.
