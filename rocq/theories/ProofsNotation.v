(** ProofsNotation.v -- the reply does not depend on the radix a line is typed in. *)
From Verif Require Import Base Position Num TokenTypes Errors Token SavedData Variables InputHistory
  SyntaxTree Commands Calculate Editor Sessions SpecGrammar SpecEval SpecPrint SpecHistory SpecEditor SpecCalc SpecSession SpecCompose SpecNotation.
From Verif Require Import ProofsNum ProofsParse2 ProofsParse3 ProofsEval ProofsEval2 ProofsEval3 ProofsPrint4 ProofsCalc2 ProofsCalc6 ProofsSession2 ProofsPure ProofsCompose ProofsLaws.
From Coq Require Import String Lia.
Local Open Scope nat_scope.
Local Open Scope list_scope.

Lemma same_output_format {E} a a' v : same_output a a' -> @format_result E a v = @format_result E a' v.
Proof. intros (P & _ & F & C & U & R). unfold format_result. unfold output_radix in R. rewrite P, F, C, U, R. reflexivity. Qed.

Lemma exact_pev pr a a' s n res : settings_ok a -> settings_ok a' -> digits_kept pr a <> None -> digits_kept pr a' <> None -> env_ok s -> no_faults s -> literals_ok n ->
  meaning (var_result s) power_exact n res -> res <> Crashes -> pev pr a (looked s) n = pev pr a' (looked s) n.
Proof.
  intros Ha Ha' K K' Hs Nf Hn M Nc.
  assert (One : forall b, settings_ok b -> digits_kept pr b <> None -> agrees (pev pr b (looked s) n) res /\ forall v, pev pr b (looked s) n = Ok v -> canon v).
  { intros b Hb Kb. destruct (digits_kept pr b) as [k|] eqn:Ek; [|congruence]. destruct (exec_exact pr b k n s res Hb Ek Hs Nf Hn M) as (s' & o & E & A).
    destruct (exec_pev pr b s n Hs Nf s (grows_refl s)) as (V & _). rewrite E in V. cbn [snd] in V. rewrite <- V. split; [exact A|].
    intros v ->. eapply exec_meaning; eauto. }
  destruct (One a Ha K) as (A1 & C1), (One a' Ha' K') as (A2 & C2).
  destruct (pev pr a (looked s) n) as [v|e|p], (pev pr a' (looked s) n) as [v'|e'|p'], res as [q|f|]; cbn in A1, A2; try contradiction; try congruence.
  f_equal. apply canon_inj; auto. etransitivity; [exact A1|symmetry; exact A2].
Qed.

Lemma valid_ok a : valid_settings a -> settings_ok a.
Proof. intros ((Hr & _) & _ & Hp' & He). split; [exact Hp'|]; split; [exact He|lia]. Qed.

Lemma notation_in_working_line pr ord1 ord2 x line1 line2 se1 se2 se1' se2' r1 r2 ts1 ts2 t res :
  working_session se1 -> working_session se2 -> same_output (s_args se1) (s_args se2) ->
  is_expression (a_radix (s_args se1)) line1 ts1 -> is_expression (a_radix (s_args se2)) line2 ts2 -> written ts1 = written ts2 ->
  (forall y, mentions ts1 y -> (e_vars (s_env se1) = None <-> e_vars (s_env se2) = None) /\
     forall v, var_value (after_recording se1) y v <-> var_value (after_recording se2) y v) ->
  line_tree ts1 t -> meaning (var_result (after_recording se1)) power_exact (st_root t) res -> res <> Crashes -> digits_kept pr (s_args se1) <> None ->
  calculate pr ord1 x line1 se1 = (se1', r1) -> calculate pr ord2 x line2 se2 = (se2', r2) -> same_reply r1 r2.
Proof.
  intros W1 W2 So T1 T2 E H L M Nc K C1 C2. rewrite (working_pure _ _ _ _ _ _ _ _ W1 T1 C1), (working_pure _ _ _ _ _ _ _ _ W2 T2 C2).
  destruct (recording_ok se1 (proj1 (proj2 W1))) as (R1 & V1 & _), (recording_ok se2 (proj1 (proj2 W2))) as (R2 & V2 & _).
  pose proof (recording_calm _ W1) as N1. pose proof (recording_calm _ W2) as N2.
  pose proof (valid_ok _ (proj1 W1)) as A1. pose proof (valid_ok _ (proj1 W2)) as A2.
  assert (K' : digits_kept pr (s_args se2) <> None). { destruct So as (P & X & _). unfold digits_kept in *. rewrite <- P, <- X. exact K. }
  assert (Hn : literals_ok (st_root t)). { eapply typed_literals; [|exact T1|apply parse_iff; exact L]. destruct (proj1 W1) as ((? & ?) & _). lia. }
  pose proof (exact_pev pr _ _ _ _ _ A1 A2 K K' R1 N1 Hn M Nc) as P.
  assert (X : pure_reply pr (s_args se1) (has_store (s_env se1)) (looked (after_recording se1)) ts1 =
              pure_reply pr (s_args se2) (has_store (s_env se2)) (looked (after_recording se2)) ts1).
  { transitivity (pure_reply pr (s_args se2) (has_store (s_env se1)) (looked (after_recording se1)) ts1).
    - rewrite !(pure_reply_tree _ _ _ _ _ _ L), P. destruct (pev pr (s_args se2) (looked (after_recording se1)) (st_root t)) as [v| |]; cbn [bind]; try reflexivity.
      rewrite (same_output_format _ _ v So). reflexivity.
    - apply pure_reply_ext. intros y p Hi. destruct (H y (ex_intro _ p Hi)) as (Hn' & Hv). split.
      + apply looked_same; auto. rewrite V1, V2. exact Hn'.
      + unfold has_store. destruct (e_vars (s_env se1)), (e_vars (s_env se2)); auto; exfalso; [destruct Hn' as [_ Hn']|destruct Hn' as [Hn' _]]; discriminate (Hn' eq_refl). }
  rewrite X. apply same_reply_res. clear X P M H. destruct L as [ts n D|y p q ts n D].
  - destruct (moved_node pr (s_args se2) (looked (after_recording se2)) _ _ ts2 (looked_pos _) D (eq_sym E)) as (n' & D' & S).
    rewrite (pure_reply_tree _ _ _ _ _ _ (lt_expression _ _ D)), (pure_reply_tree _ _ _ _ _ _ (lt_expression _ _ D')). cbn [st_root st_var].
    apply same_res_bind; [exact S|]. intros w. apply same_res_refl.
  - destruct ts2 as [|[t1 p1] [|[t2 p2] ts2]]; try discriminate E. cbn in E. injection E as <- <- E.
    destruct (moved_node pr (s_args se2) (looked (after_recording se2)) _ _ ts2 (looked_pos _) D (eq_sym E)) as (n' & D' & S).
    rewrite (pure_reply_tree _ _ _ _ _ _ (lt_assignment _ _ _ _ _ D)), (pure_reply_tree _ _ _ _ _ _ (lt_assignment _ _ _ _ _ D')). cbn [st_root st_var pd_pos].
    apply same_res_bind; [exact S|]. intros w. destruct (has_store (s_env se2)); [apply same_res_refl|]. split; [reflexivity|]. cbn. split; discriminate.
Qed.
