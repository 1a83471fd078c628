(** ProofsEval3.v -- where errors and crashes of evaluation come from; operand-level facts. *)
From Verif Require Import Base Position Num TokenTypes Errors SavedData Variables Operations Token SyntaxTree.
From Verif Require Import SpecLex SpecGrammar SpecEval ProofsLex ProofsLex2 ProofsParse2 ProofsText ProofsNum ProofsRoot ProofsRoot2 ProofsPower ProofsParse3 ProofsEval ProofsEval2.
From Coq Require Import Qabs Qpower String Lqa.
Local Open Scope Q_scope.

(** ** Literals of typed expressions are in lowest terms *)
Lemma derives_literals :
  (forall k ts n, derives k ts n -> (forall v p, In (tk (TNumber v) p) ts -> canon v) -> literals_ok n) /\
  (forall ts ns, derives_args ts ns -> (forall v p, In (tk (TNumber v) p) ts -> canon v) -> forall n, In n ns -> literals_ok n) /\
  (forall ts ns, derives_list ts ns -> (forall v p, In (tk (TNumber v) p) ts -> canon v) -> forall n, In n ns -> literals_ok n).
Proof.
  apply derives_mutind.
  - intros v p H. constructor. apply (H v p). left; reflexivity.
  - constructor.
  - intros o p ts n _ IH H. constructor. apply IH. intros v q Hi. apply (H v q). right; exact Hi.
  - intros p q ts n _ IH H. constructor. apply IH. intros v w Hi. apply (H v w). right. apply in_app_iff. left; exact Hi.
  - intros f p ts n _ IH _ H. constructor. intros m [<-|[]]. apply IH. intros v q Hi. apply (H v q). right; exact Hi.
  - intros f p o c ts ns _ IH H. constructor. apply IH. intros v w Hi. apply (H v w). right; right. apply in_app_iff. left; exact Hi.
  - intros p ts n _ IH H. constructor. apply IH. intros v q Hi. apply (H v q). right; exact Hi.
  - intros k o p ts1 ts2 a b _ _ IH1 _ IH2 H. constructor.
    + apply IH1. intros v q Hi. apply (H v q). apply in_app_iff. left; exact Hi.
    + apply IH2. intros v q Hi. apply (H v q). apply in_app_iff. right; right; exact Hi.
  - intros k ts n _ IH H. auto.
  - intros H n [].
  - intros ts ns _ IH H. auto.
  - intros ts n _ IH H m [<-|[]]. auto.
  - intros ts p ts' n ns _ IH1 _ IH2 H m [<-|Hm].
    + apply IH1. intros v q Hi. apply (H v q). apply in_app_iff. left; exact Hi.
    + apply IH2; [|exact Hm]. intros v q Hi. apply (H v q). apply in_app_iff. right; right; exact Hi.
Qed.

Lemma typed_literals s radix ts t : (2 <= radix <= 16)%N -> tokenize s radix = Ok (PTokens ts) ->
  syntax_tree_new ts = Ok t -> literals_ok (st_root t).
Proof.
  intros Hr T P. assert (C : forall v p, In (tk (TNumber v) p) ts -> canon v).
  { intros v p Hi. pose proof (number_tokens s radix ts v p Hr T Hi) as [C _]. exact C. }
  apply parse_iff in P. inversion P as [ts' n D|x p q ts' n D]; subst; cbn [st_root].
  - eapply (proj1 derives_literals); [exact D|exact C].
  - eapply (proj1 derives_literals); [exact D|]. intros v w Hi. apply (C v w). right; right; exact Hi.
Qed.

(** ** Origins of failures *)
Section Origin.
  Context (L : str -> position -> result -> Prop) (P : position -> Q -> Q -> result -> Prop).
  Inductive origin : node -> result -> Prop :=
  | o_variable : forall x p r, L x p r -> origin (NVar x p) r
  | o_unary : forall o p n x r, meaning L P n (Value x) -> unary P p x o r -> origin (NUn o p n) r
  | o_binary : forall o p a b x y r, meaning L P a (Value x) -> meaning L P b (Value y) -> binary P p x y o r ->
      origin (NBin o p a b) r
  | o_empty : forall f p w, origin (NFun f p [] w) (Fails (fail_math (FunctionNeedsArguments f) p)).

  Lemma meaning_origin :
    (forall n r, meaning L P n r -> stops r -> exists m, subnode m n /\ origin m r) /\
    (forall ns qs, meanings L P ns qs -> True) /\
    (forall ns r, first_stop L P ns r -> stops r -> exists m n, In n ns /\ subnode m n /\ origin m r).
  Proof.
    apply meaning_mutind; auto.
    - intros v p q _ [].
    - intros x p r H S. exists (NVar x p). split; [constructor|constructor; exact H].
    - intros p q n r _ IH S. destruct (IH S) as (m & Hm & O). exists m. split; [constructor; exact Hm|exact O].
    - intros o p n x r M _ U S. eexists. split; [apply sn_here|]. eapply o_unary; eauto.
    - intros o p n r _ IH _ S. destruct (IH S) as (m & Hm & O). exists m. split; [constructor; exact Hm|exact O].
    - intros o p a b x y r M _ M' _ B S. eexists. split; [apply sn_here|]. eapply o_binary; eauto.
    - intros o p a b r _ IH _ S. destruct (IH S) as (m & Hm & O). exists m. split; [apply sn_left; exact Hm|exact O].
    - intros o p a b x r _ _ _ IH _ S. destruct (IH S) as (m & Hm & O). exists m. split; [apply sn_right; exact Hm|exact O].
    - intros f p ns w qs q _ _ _ [].
    - intros f p w S. eexists. split; [apply sn_here|constructor].
    - intros f p ns w r _ IH S. destruct (IH S) as (m & n & Hi & Hm & O). exists m. split; [eapply sn_fun; eauto|exact O].
    - intros n ns r _ IH S _. destruct (IH S) as (m & Hm & O). exists m, n. split; [left; reflexivity|split; assumption].
    - intros n ns q r _ _ _ IH S. destruct (IH S) as (m & n' & Hi & Hm & O). exists m, n'. split; [right; exact Hi|split; assumption].
  Qed.
End Origin.

(** the texts of the different errors differ *)
Lemma fail_math_inj e e' p p' : fail_math e p = fail_math e' p' -> show_math_error e = show_math_error e' /\ p = p'.
Proof. intros H. unfold fail_math in H. injection H as H1 H2. auto. Qed.
Lemma not_division_variable x : show_math_error (UnknownVariable x) <> show_math_error DivisionByZero.
Proof. intros H. apply (f_equal (fun l => nth 0 l 0%N)) in H. vm_compute in H. discriminate. Qed.
Lemma not_imaginary_variable x : show_math_error (UnknownVariable x) <> show_math_error ImaginaryResult.
Proof. intros H. apply (f_equal (fun l => nth 2 l 0%N)) in H. vm_compute in H. discriminate. Qed.

Lemma var_result_failures s x p e : var_result s x p (Fails e) ->
  (forall q, e <> fail_math DivisionByZero q) /\ (forall q, e <> fail_math ImaginaryResult q).
Proof.
  intros H. inversion H; subst; split; intros q Hq; try discriminate;
  try (unfold fail_capability, fail_math in Hq; injection Hq as Hq _; vm_compute in Hq; discriminate);
  apply fail_math_inj in Hq as [Hq _]; try (apply not_division_variable in Hq; contradiction);
  apply not_imaginary_variable in Hq; contradiction.
Qed.
Lemma var_result_no_crash s x p : ~ var_result s x p Crashes.
Proof. intros H. inversion H. Qed.

Lemma power_with_fails pr a p x y e : power_with pr a p x y (Fails e) -> e = fail_math ImaginaryResult p /\ imaginary x y.
Proof.
  unfold power_with. destruct (digits_kept pr a); [|discriminate].
  intros [H|(q & H & _)]; [|discriminate]. inversion H; subst. split; [reflexivity|]. exists n0, d. auto.
Qed.
Lemma power_with_crash pr a p x y : power_with pr a p x y Crashes -> crashing_power x y \/ digits_kept pr a = None.
Proof.
  unfold power_with. destruct (digits_kept pr a); [|auto].
  intros [H|(q & H & _)]; [|discriminate]. left. inversion H; subst; [left; auto|right; eauto 7].
Qed.

Definition empty_text f : show_math_error (FunctionNeedsArguments f) <> show_math_error DivisionByZero /\
  show_math_error (FunctionNeedsArguments f) <> show_math_error ImaginaryResult.
Proof. destruct f; split; vm_compute; discriminate. Qed.

(** A division-by-zero error comes from a division whose operands have values and whose divisor is zero. *)
Lemma division_origin pr a s n p : meaning (var_result s) (power_with pr a) n (Fails (fail_math DivisionByZero p)) ->
  exists l r x y, subnode (NBin Divide p l r) n /\
    meaning (var_result s) (power_with pr a) l (Value x) /\ meaning (var_result s) (power_with pr a) r (Value y) /\ y == 0.
Proof.
  intros M. destruct (proj1 (meaning_origin _ _) _ _ M I) as (m & Hm & O). inversion O as [x q r V|o q m' x r M' U|o q l r x y r0 Ml Mr B|f q w E]; subst.
  - apply var_result_failures in V as [V _]. exfalso. apply (V p). reflexivity.
  - inversion U; subst. apply power_with_fails in H as [H _]. apply fail_math_inj in H as [H _]. vm_compute in H. discriminate.
  - inversion B; subst.
    + exists l, r, x, y. auto.
    + apply power_with_fails in H as [H _]. apply fail_math_inj in H as [H _]. vm_compute in H. discriminate.
  - exfalso. destruct f; vm_compute in H; discriminate.
Qed.
(** An imaginary-result error comes from a power or square root that is not real. *)
Lemma imaginary_origin pr a s n p : meaning (var_result s) (power_with pr a) n (Fails (fail_math ImaginaryResult p)) ->
  exists x y, imaginary x y /\
    ((exists l r, subnode (NBin Exponent p l r) n /\
      meaning (var_result s) (power_with pr a) l (Value x) /\ meaning (var_result s) (power_with pr a) r (Value y)) \/
     (exists m, y == 1 # 2 /\ subnode (NUn SquareRoot p m) n /\ meaning (var_result s) (power_with pr a) m (Value x))).
Proof.
  intros M. destruct (proj1 (meaning_origin _ _) _ _ M I) as (m & Hm & O). inversion O as [x q r V|o q m' x r M' U|o q l r x y r0 Ml Mr B|f q w E]; subst.
  - apply var_result_failures in V as [_ V]. exfalso. apply (V p). reflexivity.
  - inversion U; subst. apply power_with_fails in H as [H Hi]. apply fail_math_inj in H as [_ ->].
    exists x, (1 # 2). split; [exact Hi|]. right. exists m'. split; [reflexivity|]. auto.
  - inversion B; subst.
    + apply power_with_fails in H as [H Hi]. apply fail_math_inj in H as [_ ->]. exists x, y. split; [exact Hi|]. left. eauto.
  - exfalso. destruct f; vm_compute in H; discriminate.
Qed.
(** A crash comes from a modulus by zero, or a crashing power or square root. *)
Lemma crash_origin pr a s n k : digits_kept pr a = Some k -> meaning (var_result s) (power_with pr a) n Crashes ->
  exists m x y, subnode m n /\
    ((exists p l r, m = NBin Modulus p l r /\ y == 0 /\
        meaning (var_result s) (power_with pr a) l (Value x) /\ meaning (var_result s) (power_with pr a) r (Value y)) \/
     (exists p l r, m = NBin Exponent p l r /\ crashing_power x y /\
        meaning (var_result s) (power_with pr a) l (Value x) /\ meaning (var_result s) (power_with pr a) r (Value y)) \/
     (exists p m', m = NUn SquareRoot p m' /\ crashing_power x (1 # 2) /\ meaning (var_result s) (power_with pr a) m' (Value x))).
Proof.
  intros Hk M. destruct (proj1 (meaning_origin _ _) _ _ M I) as (m & Hm & O). inversion O as [x q r V|o q m' x r M' U|o q l r x y r0 Ml Mr B|f q w E]; subst.
  - apply var_result_no_crash in V. contradiction.
  - inversion U; subst. apply power_with_crash in H as [H|H]; [|congruence].
    eexists _, x, 0. split; [exact Hm|]. right; right. eauto 6.
  - inversion B; subst.
    + eexists _, x, y. split; [exact Hm|]. left. eauto 8.
    + apply power_with_crash in H as [H|H]; [|congruence]. eexists _, x, y. split; [exact Hm|]. right; left. eauto 8.
Qed.

(** ** Kinds of panics *)
Lemma exec_power_panic pr a p x y q : settings_ok a -> canon x -> canon y -> exec_power pr a p x y = Panic q ->
  q = DivideByZero \/ (q = ArithOverflow /\ digits_kept pr a = None).
Proof.
  intros (Hp & He & Hr) Cx Cy. pose proof (u8_twice pr _ _ Hp He) as U. unfold exec_power, digits_kept.
  destruct (if N.ltb (a_precision a + a_extra_precision a + 1) 256 then _ else _) as [k|].
  - destruct U as (t & U1 & U2). rewrite U1. cbn [bind].
    destruct (exponentiate_spec pr p x y t (a_radix a) k _ Cx Cy Hr (U2 _) (tolerance_eps _ _ Hr)) as [_ C].
    destruct (exponentiate pr x y t (a_radix a)); cbn [map_err]; intros H; try discriminate. injection H as <-. left. exact C.
  - destruct (U failure) as [->|(t & -> & U2)]; cbn [bind]; [intros H; injection H as <-; auto|].
    unfold exponentiate. destruct (ratio_is_negative y).
    + unfold ratio_inv. destruct (Z.eqb (Qnum x) 0); cbn [bind map_err]; [intros H; injection H as <-; auto|]. rewrite U2.
      cbn [bind map_err]. intros H; injection H as <-; auto.
    + cbn [bind]. rewrite U2. cbn [bind map_err]. intros H; injection H as <-; auto.
Qed.

Lemma exec_panics pr a n : settings_ok a -> literals_ok n -> forall s s' q, env_ok s -> exec pr a n s = (s', Panic q) ->
  q = DivideByZero \/ (q = ArithOverflow /\ digits_kept pr a = None).
Proof.
  intros Ha H. induction H as [v p C|x p|o p n Hn IH|o p l r Hl IHl Hr IHr|f p ns w Hns IH|p q n Hn IH]; intros s s' q0 Hs.
  - discriminate.
  - cbn [exec]. intros E. destruct (exec_variable_sound x p s s' _ Hs E) as (_ & V & _). apply var_result_no_crash in V. contradiction.
  - cbn [exec]. destruct (exec pr a n s) as [s1 o1] eqn:E. pose proof (exec_meaning pr a n s s1 o1 Ha Hs Hn E) as (_ & Hs1 & _ & C).
    destruct o1 as [v|e|q]; cbn [then_do]; intros X; apply pair_equal_spec in X as [_ X].
    + destruct o; cbn [exec_unary] in X; try discriminate. eapply exec_power_panic; [exact Ha|exact (C v eq_refl)| |exact X]; reflexivity.
    + discriminate.
    + apply (IH s s1); [exact Hs|]. rewrite E, X. reflexivity.
  - cbn [exec]. destruct (exec pr a l s) as [s1 o1] eqn:E. pose proof (exec_meaning pr a l s s1 o1 Ha Hs Hl E) as (_ & Hs1 & _ & C).
    destruct o1 as [v|e|q]; cbn [then_do].
    + destruct (exec pr a r s1) as [s2 o2] eqn:E2. pose proof (exec_meaning pr a r s1 s2 o2 Ha Hs1 Hr E2) as (_ & Hs2 & _ & C2).
      destruct o2 as [v2|e|q]; cbn [then_do]; intros X; apply pair_equal_spec in X as [_ X].
      * destruct o; cbn [exec_binary] in X; try discriminate.
        -- destruct (Z.eqb (Qnum v2) 0) eqn:Z0; [discriminate|]. unfold ratio_div in X. rewrite Z0 in X. discriminate.
        -- unfold ratio_rem in X. destruct (Z.eqb (Qnum v2) 0); [|discriminate]. injection X as <-. auto.
        -- eapply exec_power_panic; [exact Ha|exact (C v eq_refl)|exact (C2 v2 eq_refl)|exact X].
      * discriminate.
      * apply (IHr s1 s2); [exact Hs1|]. rewrite E2, X. reflexivity.
    + intros X; apply pair_equal_spec in X as [_ X]. discriminate.
    + intros X; apply pair_equal_spec in X as [_ X]. apply (IHl s s1); [exact Hs|]. rewrite E, X. reflexivity.
  - rewrite exec_fun. destruct (exec_list pr a ns s) as [s1 o1] eqn:E.
    assert (X : forall q, o1 = Panic q -> q = DivideByZero \/ (q = ArithOverflow /\ digits_kept pr a = None)).
    { clear - Ha Hns IH Hs E. revert s Hs s1 o1 E. induction ns as [|n ns IHl]; intros s Hs s1 o1 E q Hq.
      - cbn [exec_list] in E. apply pair_equal_spec in E as [_ <-]. discriminate.
      - rewrite exec_list_cons in E. destruct (exec pr a n s) as [s2 o2] eqn:E2.
        pose proof (exec_meaning pr a n s s2 o2 Ha Hs (Hns n (or_introl eq_refl)) E2) as (_ & Hs2 & _ & C).
        destruct o2 as [v|e|q']; cbn [then_do] in E.
        + destruct (exec_list pr a ns s2) as [s3 o3] eqn:E3.
          assert (R := IHl (fun m Hm => Hns m (or_intror Hm)) (fun m Hm => IH m (or_intror Hm)) s2 Hs2 s3 o3 E3).
          destruct o3 as [vs|e|q']; cbn [then_do] in E; apply pair_equal_spec in E as [_ E]; subst o1; try discriminate.
          injection Hq as <-. apply R. reflexivity.
        + apply pair_equal_spec in E as [_ E]. subst o1. discriminate.
        + apply pair_equal_spec in E as [_ E]. subst o1. injection Hq as <-.
          apply (IH n (or_introl eq_refl) s s2); assumption. }
    destruct o1 as [vs|e|q]; cbn [then_do]; intros Y; apply pair_equal_spec in Y as [_ Y].
    + destruct vs; discriminate.
    + discriminate.
    + apply X. congruence.
  - cbn [exec]. apply IH; exact Hs.
Qed.

(** ** Operand level *)
Lemma exec_bin_val pr a o p l r s s1 s2 x y : exec pr a l s = (s1, Ok x) -> exec pr a r s1 = (s2, Ok y) ->
  exec pr a (NBin o p l r) s = (s2, exec_binary pr a o p x y).
Proof. intros H1 H2. cbn [exec]. rewrite H1. cbn [then_do]. rewrite H2. reflexivity. Qed.
Lemma exec_un_val pr a o p n s s1 x : exec pr a n s = (s1, Ok x) -> exec pr a (NUn o p n) s = (s1, exec_unary pr a o p x).
Proof. intros H. cbn [exec]. rewrite H. reflexivity. Qed.

Lemma operands_canon pr a l r s s1 s2 x y : settings_ok a -> env_ok s -> literals_ok l -> literals_ok r ->
  exec pr a l s = (s1, Ok x) -> exec pr a r s1 = (s2, Ok y) -> canon x /\ canon y.
Proof.
  intros Ha Hs Hl Hr E1 E2. pose proof (exec_meaning pr a l s s1 _ Ha Hs Hl E1) as (_ & Hs1 & _ & C1).
  pose proof (exec_meaning pr a r s1 s2 _ Ha Hs1 Hr E2) as (_ & _ & _ & C2). split; [apply C1|apply C2]; reflexivity.
Qed.

(** a power whose exact result is known gives it *)
Lemma exec_power_exact pr a k p x y r : settings_ok a -> digits_kept pr a = Some k -> canon x -> canon y ->
  power_exact p x y r -> agrees (exec_power pr a p x y) r.
Proof.
  intros Ha Hk Cx Cy H. destruct (exec_power_sound pr a Ha p x y Cx Cy) as [P _]. unfold power_with in P. rewrite Hk in P.
  pose proof (power_det _ p x y x y r _ (Qeq_refl x) (Qeq_refl y) H P) as S.
  destruct r, (exec_power pr a p x y); cbn in *; auto; try contradiction. symmetry. exact S.
Qed.
