(** ProofsLaws.v -- formulas of the same rational value are interchangeable. *)
From Verif Require Import Base Position Num TokenTypes Errors Token SavedData Variables InputHistory
  SyntaxTree Commands Calculate Editor Sessions SpecGrammar SpecEval SpecPrint SpecHistory SpecEditor SpecCalc SpecSession SpecCompose SpecLaws.
From Verif Require Import ProofsNum ProofsParse2 ProofsParse3 ProofsEval ProofsEval2 ProofsEval3 ProofsPrint4 ProofsCalc2 ProofsCalc6 ProofsSession2 ProofsPure ProofsCompose.
From Coq Require Import String Lia Qabs Qpower Qminmax Lqa Qfield.
Local Open Scope nat_scope.
Local Open Scope list_scope.

Lemma same_res_sym {A} (x y : outcome failure A) : same_res x y -> same_res y x.
Proof.
  destruct x, y; cbn; try tauto; try congruence. destruct e, e0; cbn; try tauto; try congruence. intros [-> H]. split; [reflexivity|tauto].
Qed.
Lemma same_res_trans {A} (x y z : outcome failure A) : same_res x y -> same_res y z -> same_res x z.
Proof.
  destruct x, y, z; cbn; try tauto; try congruence. destruct e, e0, e1; cbn; try tauto; try congruence. intros [-> H] [-> H']. split; [reflexivity|tauto].
Qed.

(** Putting expressions of the same value in the same places. *)
Lemma put_replaced h e ts : replaced (TVariable h) (in_parentheses e) ts (put h e ts).
Proof.
  induction ts as [|t ts IH]; [constructor|]. unfold put. cbn [flat_map]. fold (put h e ts).
  destruct t; try (apply rp_keep; exact IH). destruct (list_eq_dec N.eq_dec name h) as [->|N]; [apply rp_change; exact IH|apply rp_keep; exact IH].
Qed.
Lemma put_fresh h e ts : ~ In (TVariable h) e -> ~ In (TVariable h) (put h e ts).
Proof.
  intros F. induction ts as [|t ts IH]; [exact (fun x => x)|]. unfold put. cbn [flat_map]. fold (put h e ts). rewrite in_app_iff. intros [K|K]; [|exact (IH K)].
  destruct t; cbn in K; try (destruct K as [K|[]]; discriminate K). destruct (list_eq_dec N.eq_dec name h) as [->|N].
  - unfold in_parentheses in K. destruct K as [K|K]; [discriminate K|]. apply in_app_iff in K as [K|[K|[]]]; [exact (F K)|discriminate K].
  - destruct K as [K|[]]. injection K as K. exact (N K).
Qed.
Lemma written_in t p ts : In (tk t p) ts -> In t (written ts).
Proof. intros H. apply (in_map pd_value) in H. exact H. Qed.

Lemma written_in_parens body us : written us = in_parentheses body -> exists p es q, us = tk TOpen p :: es ++ [tk TClose q] /\ written es = body.
Proof.
  unfold written, in_parentheses. destruct us as [|[u p] us]; [discriminate|]. cbn. intros E. injection E as -> E.
  apply map_eq_app in E as (es & l & -> & <- & E). destruct l as [|[w q] [|]]; try discriminate. cbn in E. injection E as ->. eauto.
Qed.

Lemma derives_more j k ts n : j <= k -> derives j ts n -> derives k ts n.
Proof. intros H D. induction H as [|k H IH]; [exact D|]. apply d_weaken. exact IH. Qed.

(** [body] is an expression of value [v] wherever it stands. *)
Definition stands (pr : profile) (a : args) (lk : str -> position -> outcome failure Q) (body : list token) (v : Q) : Prop :=
  forall us, written us = body -> exists m, derives 5 us m /\ pev pr a lk m = Ok v.

Lemma put_same pr a lk h body1 body2 v outline n ts1 ts2 : (forall x p p', same_res (lk x p) (lk x p')) ->
  ~ In (TVariable h) body1 -> ~ In (TVariable h) body2 -> stands pr a lk body1 v -> stands pr a lk body2 v ->
  derives 5 outline n -> written ts1 = put h body1 (written outline) -> written ts2 = put h body2 (written outline) ->
  exists n1 n2, derives 5 ts1 n1 /\ derives 5 ts2 n2 /\ same_res (pev pr a lk n1) (pev pr a lk n2).
Proof.
  intros Hl F1 F2 S1 S2 D E1 E2.
  set (lk' := fun x p => if list_eq_dec N.eq_dec x h then Ok v else lk x p).
  assert (Hl' : forall x p p', same_res (lk' x p) (lk' x p')) by (intros x p p'; unfold lk'; destruct (list_eq_dec N.eq_dec x h); [reflexivity|apply Hl]).
  assert (Far : forall ts m, derives 5 ts m -> ~ In (TVariable h) (written ts) -> pev pr a lk' m = pev pr a lk m).
  { intros ts m Dm N. apply (proj1 (pev_ext pr a lk' lk) 5 ts m Dm). intros y p Hi. unfold lk'. destruct (list_eq_dec N.eq_dec y h) as [->|]; [|reflexivity].
    destruct (N (written_in _ _ _ Hi)). }
  assert (One : forall body ts, ~ In (TVariable h) body -> stands pr a lk body v -> written ts = put h body (written outline) ->
    exists m, derives 5 ts m /\ same_res (pev pr a lk' n) (pev pr a lk m)).
  { intros body ts F S E.
    destruct (proj1 (replace_node pr a lk' (TVariable h) body v Hl' (or_intror (ex_intro _ h eq_refl))
      ltac:(intros p m Dm; inversion Dm; subst; cbn [pev]; unfold lk'; destruct (list_eq_dec N.eq_dec h h); [reflexivity|congruence])
      ltac:(intros us W; destruct (S us W) as (m & Dm & Em); exists m; split; [exact Dm|]; rewrite (Far us m Dm); [exact Em|rewrite W; exact F])) 5 outline n D ts)
      as (m & Dm & R). { unfold rep. rewrite E. apply put_replaced. }
    exists m. split; [exact Dm|]. rewrite <- (Far ts m Dm); [exact R|]. rewrite E. apply put_fresh. exact F. }
  destruct (One body1 ts1 F1 S1 E1) as (m1 & D1 & R1), (One body2 ts2 F2 S2 E2) as (m2 & D2 & R2).
  exists m1, m2. split; [exact D1|]. split; [exact D2|]. eapply same_res_trans; [apply same_res_sym; exact R1|exact R2].
Qed.

Lemma comes_to_stands pr a s ts v : env_ok s -> no_faults s -> comes_to pr a s ts v -> stands pr a (looked s) (written ts) v.
Proof.
  intros Hs Nf H us W. destruct (comes_to_pev _ _ _ _ _ Hs Nf H) as (n & D & E).
  destruct (moved_node pr a (looked s) _ _ us (looked_pos s) D W) as (n' & D' & S). exists n'. split; [exact D'|].
  rewrite E in S. cbn in S. destruct (pev pr a (looked s) n'); try contradiction. congruence.
Qed.

Lemma line_with_same pr a st lk h outline body1 body2 v ts1 ts2 : (forall x p p', same_res (lk x p) (lk x p')) ->
  ~ In (TVariable h) body1 -> ~ In (TVariable h) body2 -> stands pr a lk body1 v -> stands pr a lk body2 v ->
  line_with h outline body1 ts1 -> line_with h outline body2 ts2 -> same_reply (pure_reply pr a st lk ts1) (pure_reply pr a st lk ts2).
Proof.
  intros Hl F1 F2 S1 S2 L1 L2. apply same_reply_res. destruct L1 as [n ts1 D E1|y p q p' q' rest n ts1 Eo D E1]; destruct L2 as [n0 ts2 D0 E2|y0 p0 q0 p0' q0' rest0 n0 ts2 Eo0 D0 E2].
  - destruct (put_same pr a lk h body1 body2 v outline n ts1 ts2 Hl F1 F2 S1 S2 D E1 E2) as (n1 & n2 & D1 & D2 & R).
    rewrite (pure_reply_tree _ _ _ _ _ _ (lt_expression _ _ D1)), (pure_reply_tree _ _ _ _ _ _ (lt_expression _ _ D2)). cbn [st_root st_var].
    apply same_res_bind; [exact R|]. intros w. apply same_res_refl.
  - exfalso. subst outline. pose proof (line_tree_unique _ _ _ (lt_expression _ _ D) (lt_assignment _ _ _ _ _ D0)) as X. discriminate X.
  - exfalso. subst outline. pose proof (line_tree_unique _ _ _ (lt_expression _ _ D0) (lt_assignment _ _ _ _ _ D)) as X. discriminate X.
  - subst outline. injection Eo0 as <- <- <- <-. 
    destruct (put_same pr a lk h body1 body2 v rest n ts1 ts2 Hl F1 F2 S1 S2 D E1 E2) as (n1 & n2 & D1 & D2 & R).
    rewrite (pure_reply_tree _ _ _ _ _ _ (lt_assignment _ _ _ _ _ D1)), (pure_reply_tree _ _ _ _ _ _ (lt_assignment _ _ _ _ _ D2)). cbn [st_root st_var pd_pos].
    apply same_res_bind; [exact R|]. intros w. destruct st; [apply same_res_refl|]. split; [reflexivity|]. cbn. split; discriminate.
Qed.

Lemma interchange_in_working_line pr ord ord' x line line' se se1 se2 r1 r2 ts ts' h outline es es' v :
  working_session se -> is_expression (a_radix (s_args se)) line ts -> is_expression (a_radix (s_args se)) line' ts' ->
  comes_to pr (s_args se) (after_recording se) es v -> comes_to pr (s_args se) (after_recording se) es' v ->
  ~ mentions es h -> ~ mentions es' h ->
  line_with h outline (written es) ts -> line_with h outline (written es') ts' ->
  calculate pr ord x line se = (se1, r1) -> calculate pr ord' x line' se = (se2, r2) -> same_reply r1 r2.
Proof.
  intros W T T' Ce Ce' N N' L L' C1 C2. rewrite (working_pure _ _ _ _ _ _ _ _ W T C1), (working_pure _ _ _ _ _ _ _ _ W T' C2).
  pose proof (recording_calm se W) as Nf. destruct (recording_ok se (proj1 (proj2 W))) as (Rok & _).
  assert (F : forall us, ~ mentions us h -> ~ In (TVariable h) (written us)).
  { intros us M H. apply M. unfold written in H. apply in_map_iff in H as ([t p] & E & H). cbn in E. subst t. exists p. exact H. }
  eapply (line_with_same _ _ _ _ h outline (written es) (written es') v); auto using looked_pos, comes_to_stands.
Qed.

(** Formulas. *)
Section Formula.
  Context (pr : profile) (a : args) (lk : str -> position -> outcome failure Q) (part : nat -> list token) (val : nat -> Q).
  Hypothesis Ha : settings_ok a.
  Hypothesis Hpart : forall i, canon (val i) /\ stands pr a lk (part i) (val i).

  Definition worth (k : nat) (ts : list token) (q : Q) : Prop :=
    forall us, written us = ts -> exists m v, derives k us m /\ pev pr a lk m = Ok v /\ canon v /\ v == q.
  Lemma worth_up k ts q : worth 0 ts q -> worth k ts q.
  Proof. intros H us W. destruct (H us W) as (m & v & D & R). exists m, v. split; [apply derives_up; exact D|exact R]. Qed.
  Lemma worth_eq k ts q q' : q == q' -> worth k ts q -> worth k ts q'.
  Proof. intros E H us W. destruct (H us W) as (m & v & D & R & Cv & V). exists m, v. repeat split; auto. rewrite V. exact E. Qed.
  Lemma worth_paren ts q : worth 5 ts q -> worth 0 (in_parentheses ts) q.
  Proof.
    intros H us W. destruct (written_in_parens ts us W) as (p & es & p' & -> & We). destruct (H es We) as (m & v & D & R).
    exists (NParen p p' m), v. split; [constructor; exact D|exact R].
  Qed.
  Lemma written_app us ts ts' : written us = ts ++ ts' -> exists u1 u2, us = u1 ++ u2 /\ written u1 = ts /\ written u2 = ts'.
  Proof. unfold written. intros H. apply map_eq_app in H as (u1 & u2 & -> & <- & <-). eauto. Qed.
  Lemma written_cons us t ts : written us = t :: ts -> exists p u, us = tk t p :: u /\ written u = ts.
  Proof. destruct us as [|[t' p] us]; [discriminate|]. cbn. intros H. injection H as -> <-. eauto. Qed.

  Lemma worth_binary o ts ts' x y q : worth 5 ts x -> worth 5 ts' y ->
    (forall p x' y', canon x' -> canon y' -> x' == x -> y' == y -> exists v, exec_binary pr a o p x' y' = Ok v /\ canon v /\ v == q) ->
    worth 5 (in_parentheses ts ++ TBin o :: in_parentheses ts') q.
  Proof.
    intros Hx Hy He us W. apply written_app in W as (u1 & u2 & -> & W1 & W2). apply written_cons in W2 as (p & u2' & -> & W2).
    destruct (worth_paren _ _ Hx u1 W1) as (m1 & v1 & D1 & E1 & C1 & V1). destruct (worth_paren _ _ Hy u2' W2) as (m2 & v2 & D2 & E2 & C2 & V2).
    destruct (He p v1 v2 C1 C2 V1 V2) as (v & Ev & Cv & Vv). exists (NBin o p m1 m2), v.
    split; [|split; [cbn [pev]; rewrite E1, E2; exact Ev|auto]].
    assert (K : exists k, binop_level o = S k /\ S k <= 5) by (destruct o; cbn; eexists; split; try reflexivity; lia). destruct K as (k & K & Le).
    apply (derives_more (S k) 5 _ _ Le). apply d_binary with (k := k); [exact K|apply derives_up; exact D1|apply derives_up; exact D2].
  Qed.
  Lemma worth_function f ts ts' x y q : worth 5 ts x -> worth 5 ts' y ->
    (forall x' y', canon x' -> canon y' -> x' == x -> y' == y -> exists v, (forall p, exec_function f p [x'; y'] = Ok v) /\ canon v /\ v == q) ->
    worth 0 (TFun f :: in_parentheses (ts ++ TComma :: ts')) q.
  Proof.
    intros Hx Hy He us W. apply written_cons in W as (p & u & -> & W). destruct (written_in_parens _ _ W) as (p1 & es & p2 & -> & We).
    apply written_app in We as (u1 & u2 & -> & W1 & W2). apply written_cons in W2 as (pc & u2' & -> & W2).
    destruct (Hx u1 W1) as (m1 & v1 & D1 & E1 & C1 & V1). destruct (Hy u2' W2) as (m2 & v2 & D2 & E2 & C2 & V2).
    destruct (He v1 v2 C1 C2 V1 V2) as (v & Ev & Cv & Vv). exists (NFun f p [m1; m2] (from_span p1 p2)), v.
    split; [constructor; apply da_some, dl_more; [exact D1|apply dl_one; exact D2]|]. split; [|auto].
    rewrite pev_fun. cbn [pevs]. rewrite E1, E2. cbn [bind]. apply Ev.
  Qed.

  Lemma formula_worth f q : (has_powers f -> digits_kept pr a <> None) -> denotes val f q -> worth 5 (formula_text part f) q.
  Proof.
    intros Hp D. induction D as [i q E|n q E|f g x y q _ IHf _ IHg E|f g x y q _ IHf _ IHg E|f g x y q _ IHf _ IHg E|f g x y q _ IHf _ IHg N E|f g x y q _ IHf _ IHg N E
      |f g x y z q _ IHf _ IHg Ey X E|f x q _ IHf E|f x q _ IHf E|f g x y q _ IHf _ IHg E|f g x y q _ IHf _ IHg E]; cbn [formula_text]; cbn [has_powers] in Hp.
    - intros us W. destruct (Hpart i) as (Cv & S). destruct (S us W) as (m & Dm & Em). exists m, (val i). repeat split; auto. symmetry. exact E.
    - apply worth_up. intros us W. apply written_cons in W as (p & u & -> & W). destruct u; [|discriminate W]. exists (NNum (inject_Z (Z.of_N n)) p), (inject_Z (Z.of_N n)).
      split; [constructor|]. split; [reflexivity|]. split; [apply canon_int|symmetry; exact E].
    - apply (worth_binary Add _ _ x y); [apply IHf; tauto|apply IHg; tauto|]. intros p x' y' _ _ Ex Ey'. eexists. split; [reflexivity|].
      split; [apply canon_Qred|]. unfold ratio_add. rewrite Qred_correct, E, Ex, Ey'. reflexivity.
    - apply (worth_binary Subtract _ _ x y); [apply IHf; tauto|apply IHg; tauto|]. intros p x' y' _ _ Ex Ey'. eexists. split; [reflexivity|].
      split; [apply canon_Qred|]. unfold ratio_sub. rewrite Qred_correct, E, Ex, Ey'. reflexivity.
    - apply (worth_binary Multiply _ _ x y); [apply IHf; tauto|apply IHg; tauto|]. intros p x' y' _ _ Ex Ey'. eexists. split; [reflexivity|].
      split; [apply canon_Qred|]. unfold ratio_mul. rewrite Qred_correct, E, Ex, Ey'. reflexivity.
    - apply (worth_binary Divide _ _ x y); [apply IHf; tauto|apply IHg; tauto|]. intros p x' y' _ _ Ex Ey'. cbn [exec_binary].
      assert (N' : ~ y' == 0) by (rewrite Ey'; exact N). rewrite (proj2 (num_nonzero y') N'), (ratio_div_ok _ _ N'). eexists. split; [reflexivity|].
      split; [apply canon_Qred|]. rewrite Qred_correct, E, Ex, Ey'. reflexivity.
    - apply (worth_binary Modulus _ _ x y); [apply IHf; tauto|apply IHg; tauto|]. intros p x' y' _ _ Ex Ey'. cbn [exec_binary].
      assert (N' : ~ y' == 0) by (rewrite Ey'; exact N). destruct (ratio_rem_spec (F := failure) x' y' N') as (r & -> & Cr & R). eexists. split; [reflexivity|].
      split; [exact Cr|]. eapply remainder_unique; [exact Ex|exact Ey'|exact R|exact E].
    - apply (worth_binary Exponent _ _ x y); [apply IHf; tauto|apply IHg; tauto|]. intros p x' y' Cx Cy Ex Ey'. cbn [exec_binary].
      destruct (digits_kept pr a) as [k|] eqn:K; [|destruct (Hp I eq_refl)].
      assert (P : power_exact p x' y' (Value q)).
      { apply (pe_integer p x' y' z); [rewrite Ey'; exact Ey| |rewrite E, Ex; reflexivity]. destruct X as [X|X]; [left; exact X|right; rewrite Ex; exact X]. }
      pose proof (exec_power_exact pr a k p x' y' _ Ha K Cx Cy P) as Ag. destruct (exec_power_sound pr a Ha p x' y' Cx Cy) as (_ & Cv).
      destruct (exec_power pr a p x' y') as [v|e|p0]; try contradiction. exists v. split; [reflexivity|]. split; [apply Cv; reflexivity|exact Ag].
    - intros us W. apply written_cons in W as (p & u & -> & W). destruct (worth_paren _ _ (IHf Hp) u W) as (m & v & Dm & Em & Cv & V).
      exists (NUn Negate p m), (ratio_neg v). split; [do 4 apply d_weaken; apply d_negate; apply derives_up; exact Dm|]. split; [cbn [pev]; rewrite Em; reflexivity|].
      split; [apply canon_opp; exact Cv|]. unfold ratio_neg. rewrite E, V. reflexivity.
    - apply worth_up. intros us W. apply written_cons in W as (p & u & -> & W). destruct (worth_paren _ _ (IHf Hp) u W) as (m & v & Dm & Em & Cv & V).
      exists (NUn AbsoluteValue p m), (ratio_abs v). split; [apply d_unary; apply derives_up; exact Dm|]. split; [cbn [pev]; rewrite Em; reflexivity|].
      split; [apply canon_abs; exact Cv|]. unfold ratio_abs. rewrite E, V. reflexivity.
    - apply worth_up. apply (worth_function FMax _ _ x y); [apply IHf; tauto|apply IHg; tauto|]. intros x' y' Cx Cy Ex Ey'. exists (ratio_max x' y').
      split; [reflexivity|]. destruct (ratio_max_spec x' y') as (M & M1 & M2). split; [destruct M as [->| ->]; assumption|].
      rewrite E. rewrite <- Ex, <- Ey'. apply Qle_antisym.
      + destruct M as [->| ->]; [apply Q.le_max_l|apply Q.le_max_r].
      + apply Q.max_lub; assumption.
    - apply worth_up. apply (worth_function FMin _ _ x y); [apply IHf; tauto|apply IHg; tauto|]. intros x' y' Cx Cy Ex Ey'. exists (ratio_min x' y').
      split; [reflexivity|]. destruct (ratio_min_spec x' y') as (M & M1 & M2). split; [destruct M as [->| ->]; assumption|].
      rewrite E. rewrite <- Ex, <- Ey'. apply Qle_antisym.
      + apply Q.min_glb; assumption.
      + destruct M as [->| ->]; [apply Q.le_min_l|apply Q.le_min_r].
  Qed.
  Lemma formula_stands f q : (has_powers f -> digits_kept pr a <> None) -> denotes val f q -> stands pr a lk (formula_text part f) (Qred q).
  Proof.
    intros Hp D us W. destruct (formula_worth f q Hp D us W) as (m & v & Dm & Em & Cv & V). exists m. split; [exact Dm|]. rewrite Em. f_equal. apply canon_of; assumption.
  Qed.
End Formula.

Lemma formula_fresh h part f : (forall i, ~ In (TVariable h) (part i)) -> ~ In (TVariable h) (formula_text part f).
Proof.
  intros H. assert (P : forall ts, ~ In (TVariable h) ts -> ~ In (TVariable h) (in_parentheses ts)).
  { intros ts N K. destruct K as [K|K]; [discriminate K|]. apply in_app_iff in K as [K|[K|[]]]; [exact (N K)|discriminate K]. }
  induction f as [i|n|f IHf g IHg|f IHf g IHg|f IHf g IHg|f IHf g IHg|f IHf g IHg|f IHf g IHg|f IHf|f IHf|f IHf g IHg|f IHf g IHg]; cbn [formula_text]; [apply H|intros [K|[]]; discriminate K|..];
    try (intros K; apply in_app_iff in K as [K|[K|K]]; [exact (P _ IHf K)|discriminate K|exact (P _ IHg K)]);
    try (intros [K|K]; [discriminate K|exact (P _ IHf K)]);
    (intros [K|K]; [discriminate K|]; revert K; apply P; intros K; apply in_app_iff in K as [K|[K|K]]; [exact (IHf K)|discriminate K|exact (IHg K)]).
Qed.

Lemma typed_canon pr a s line ts v : valid_settings a -> env_ok s -> is_expression (a_radix a) line ts -> comes_to pr a s ts v -> canon v.
Proof.
  intros Va Hs T (n & s' & D & E). assert (Ha : settings_ok a) by (destruct Va as ((Hr & _) & _ & Hp & He); split; [exact Hp|]; split; [exact He|lia]).
  assert (P : syntax_tree_new ts = Ok (mkTree None n)) by (apply parse_iff; constructor; exact D).
  pose proof (typed_literals line (a_radix a) ts _ (proj1 Va) T P) as L. cbn in L.
  destruct (exec_meaning pr a n s s' _ Ha Hs L E) as (_ & _ & _ & Cv). apply Cv. reflexivity.
Qed.

Lemma identity_in_working_line pr ord ord' x line line' se se1 se2 r1 r2 ts ts' h outline (text : nat -> str) part val f g q :
  working_session se -> is_expression (a_radix (s_args se)) line ts -> is_expression (a_radix (s_args se)) line' ts' ->
  (forall i, is_expression (a_radix (s_args se)) (text i) (part i) /\ comes_to pr (s_args se) (after_recording se) (part i) (val i) /\ ~ mentions (part i) h) ->
  denotes val f q -> denotes val g q -> (has_powers f \/ has_powers g -> digits_kept pr (s_args se) <> None) ->
  line_with h outline (formula_text (fun i => written (part i)) f) ts -> line_with h outline (formula_text (fun i => written (part i)) g) ts' ->
  calculate pr ord x line se = (se1, r1) -> calculate pr ord' x line' se = (se2, r2) -> same_reply r1 r2.
Proof.
  intros W T T' Hpart Df Dg Hp L L' C1 C2. rewrite (working_pure _ _ _ _ _ _ _ _ W T C1), (working_pure _ _ _ _ _ _ _ _ W T' C2).
  pose proof (recording_calm se W) as Nf. destruct (recording_ok se (proj1 (proj2 W))) as (Rok & _). pose proof (proj1 W) as Va.
  assert (Ha : settings_ok (s_args se)) by (destruct Va as ((Hr & _) & _ & Hp' & He); split; [exact Hp'|]; split; [exact He|lia]).
  assert (K : forall i, canon (val i) /\ stands pr (s_args se) (looked (after_recording se)) (written (part i)) (val i)).
  { intros i. destruct (Hpart i) as (Ti & Ci & _). split; [eapply typed_canon; eauto|apply comes_to_stands; auto]. }
  assert (F : forall f, ~ In (TVariable h) (formula_text (fun i => written (part i)) f)).
  { intros f0. apply formula_fresh. intros i H. destruct (Hpart i) as (_ & _ & M). apply M. unfold written in H. apply in_map_iff in H as ([t p] & E & H). cbn in E. subst t. exists p. exact H. }
  eapply line_with_same with (v := Qred q); [apply looked_pos|apply F|apply F| | |exact L|exact L'];
    (apply formula_stands with (val := val); [exact Ha|exact K|intros X; apply Hp; tauto|assumption]).
Qed.
