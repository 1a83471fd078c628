(** ProofsAccuracy.v -- how far an answer is from what was asked for. *)
From Verif Require Import Base Position Num TokenTypes Errors Token SavedData Variables InputHistory
  SyntaxTree Commands Calculate SpecLex SpecGrammar SpecEval SpecPrint SpecHistory SpecCalc SpecSession SpecCompose SpecReentry SpecAccuracy.
From Verif Require Import ProofsParse2 ProofsNum ProofsEval ProofsPrint ProofsPrint2 ProofsPrint3 ProofsPrint4 ProofsCalc ProofsCalc4 ProofsSession2 ProofsPure ProofsCompose ProofsLaws ProofsReentry ProofsCalc6 PropertiesParse PropertiesPrint.
From Coq Require Import String Lia Qabs Lqa List Qround.
Local Open Scope list_scope.

Lemma pow_pos radix p : (2 <= radix)%N -> (0 < Z.of_N radix ^ Z.of_N p)%Z.
Proof. intros H. apply Z.pow_pos_nonneg; lia. Qed.
Lemma half_unit radix p v q : (2 <= radix)%N -> nearest radix p v q -> (Qabs (q - v) <= last_place radix p / 2)%Q.
Proof.
  intros Hr (_ & N). unfold last_place. pose proof (pow_pos radix p Hr) as P. unfold representable in N. set (D := (Z.of_N radix ^ Z.of_N p)%Z) in *. clearbody D.
  assert (Dq : (0 < inject_Z D)%Q) by (change 0%Q with (inject_Z 0); rewrite <- Zlt_Qlt; exact P).
  pose (m := Qfloor (v * inject_Z D + (1#2))). assert (M1 := Qfloor_le (v * inject_Z D + (1#2))). assert (M2 := Qlt_floor (v * inject_Z D + (1#2))). fold m in M1, M2.
  rewrite inject_Z_plus in M2. change (inject_Z 1) with 1%Q in M2.
  destruct (N (inject_Z m / inject_Z D)%Q) as (L & _). { exists m. field. intros X. rewrite X in Dq. discriminate Dq. }
  eapply Qle_trans; [exact L|]. set (d := inject_Z D) in *. clearbody d.
  assert (E : (inject_Z m / d - v == (inject_Z m - v * d) / d)%Q) by (field; intros X; rewrite X in Dq; discriminate Dq).
  rewrite E. assert (E2 : (1 / d / 2 == (1#2) / d)%Q) by (field; intros X; rewrite X in Dq; discriminate Dq). rewrite E2.
  unfold Qdiv at 1. rewrite Qabs_Qmult. assert (I : (0 <= / d)%Q) by (apply Qlt_le_weak, Qinv_lt_0_compat, Dq). rewrite (Qabs_pos (/ d)) by exact I.
  unfold Qdiv. apply Qmult_le_compat_r; [|exact I]. apply Qabs_case; intros; lra.
Qed.
Lemma nearest_unique_eq radix p v w q q' : nearest radix p v q -> nearest radix p w q' -> (v == w)%Q -> (q == q')%Q.
Proof. intros A B E. apply Qle_antisym; [eapply nearest_mono; eauto; rewrite E; apply Qle_refl|eapply nearest_mono; eauto; rewrite E; apply Qle_refl]. Qed.
Lemma same_shown radix p v w q : (2 <= radix)%N -> nearest radix p v q -> nearest radix p w q -> (Qabs (v - w) <= last_place radix p)%Q.
Proof.
  intros Hr A B. apply (half_unit _ _ _ _ Hr) in A, B. set (u := last_place radix p) in *.
  assert (E : (u == u / 2 + u / 2)%Q) by field. rewrite E. clear E. revert A B. generalize (u / 2)%Q. intros h.
  apply Qabs_case; intros; revert A B; apply Qabs_case; intros; try lra; revert A B; apply Qabs_case; intros; lra.
Qed.
Lemma nearest_eq radix p v q q' : (q == q')%Q -> nearest radix p v q -> nearest radix p v q'.
Proof.
  intros E ((m & R) & N). split; [exists m; rewrite <- E; exact R|]. intros u U. destruct (N u U) as (A & B).
  split; [rewrite <- E; exact A|]. rewrite <- E. exact B.
Qed.
Lemma representable_more radix p p' q : (p <= p')%N -> representable radix p q -> representable radix p' q.
Proof.
  intros L (m & E). exists (m * Z.of_N radix ^ Z.of_N (p' - p))%Z. rewrite inject_Z_mult, <- E.
  replace (Z.of_N p') with (Z.of_N p + Z.of_N (p' - p))%Z by lia. rewrite Z.pow_add_r, inject_Z_mult by lia. ring.
Qed.
Lemma representable_opp radix p q : representable radix p q -> representable radix p (- q).
Proof. intros (m & E). exists (- m)%Z. rewrite inject_Z_opp, <- E. ring. Qed.
Lemma nearest_opp radix p v q : nearest radix p v q -> nearest radix p (- v) (- q).
Proof.
  intros (R & N). split; [apply representable_opp; exact R|]. intros u U. destruct (N (- u)%Q (representable_opp _ _ _ U)) as (A & B).
  assert (E : forall x, (Qabs (x - - v) == Qabs (- x - v))%Q). { intros x. rewrite <- (Qabs_opp (x - - v)). apply Qabs_wd. ring. }
  rewrite !E. assert (E2 : (- - q == q)%Q) by ring. rewrite E2. rewrite Qabs_opp in B. split; [exact A|]. rewrite Qabs_opp. exact B.
Qed.

(** ** Opposite numbers *)
Lemma integer_opp radix z s : (0 < z)%Z -> integer_text radix z s -> integer_text radix (- z) (lit "-" ++ s).
Proof.
  intros Hz (neg & ids & (E & D) & Ng & V). destruct neg; [pose proof (proj1 Ng eq_refl); lia|].
  exists true, ids. split; [split; [|exact D]|]. { rewrite E. reflexivity. }
  split; [split; [lia|reflexivity]|]. rewrite <- V. reflexivity.
Qed.
Lemma result_opp a v s : (0 < v)%Q -> result_text a v s -> result_text a (- v) (lit "-" ++ s).
Proof.
  intros Hv [(F & n & d & E & G & T)|(F & neg & ids & fds & gs & Hd & Hn & Hz & Ng & Nr & Len & Gr & ->)]; [left|right].
  - split; [exact F|]. exists (- n)%Z, d. split; [rewrite E; reflexivity|]. split; [rewrite Z.gcd_opp_l; exact G|].
    assert (Pn : (0 < n)%Z). { rewrite E in Hv. unfold Qlt in Hv. cbn in Hv. lia. }
    destruct T as [(-> & T)|(Nd & sn & sd & Tn & Td & ->)].
    + left. split; [reflexivity|]. apply integer_opp; assumption.
    + right. split; [exact Nd|]. exists (lit "-" ++ sn), sd. split; [apply integer_opp; assumption|]. split; [exact Td|]. apply app_assoc.
  - split; [exact F|]. destruct neg. { exfalso. pose proof (proj1 Ng eq_refl) as X. revert X. apply Qle_not_lt, Qlt_le_weak, Hv. }
    exists true, ids, fds, gs. split; [exact Hd|]. split; [exact Hn|]. split; [exact Hz|]. split; [split; [intros _; lra|reflexivity]|].
    split. { change (text_value (output_radix a) true ids fds) with (- text_value (output_radix a) false ids fds)%Q. apply nearest_opp. exact Nr. }
    split. { destruct Len as [(R & L)|(R & L)]; [left|right]; (split; [|exact L]); [apply representable_opp; exact R|]. intros X. apply R. apply representable_opp in X. destruct X as (m & X). exists m. rewrite <- X. ring. }
    split; [exact Gr|]. reflexivity.
Qed.
(** ** Lines *)
Lemma working_line_value pr ord x line ts se se1 text : working_session se -> is_expression (a_radix (s_args se)) line ts -> ts <> [] ->
  calculate pr ord x line se = (se1, Ok text) -> exists v, line_value pr se ts v /\ result_text (s_args se) v text.
Proof. intros W T Hn C. destruct (working_answer _ _ _ _ _ _ _ _ W T Hn C) as (n & v & D & M & R). exists v. split; [exists n; auto|exact R]. Qed.
Lemma fraction_value v w s : fraction_text 10 v s -> fraction_text 10 w s -> (v == w)%Q.
Proof.
  intros A B. destruct (fraction_read _ _ A) as (ts & t & T & P & X). destruct (fraction_read _ _ B) as (ts' & t' & T' & P' & X').
  rewrite T in T'. injection T' as <-. rewrite P in P'. injection P' as <-.
  specialize (X Debug any_settings None (mkEnv None None)). specialize (X' Debug any_settings None (mkEnv None None)).
  rewrite X in X'. injection X' as E1. rewrite <- (Qred_correct v), <- (Qred_correct w). unfold Qeq. cbn. congruence.
Qed.
Lemma same_text_close a v w s : valid_settings a -> result_text a v s -> result_text a w s ->
  if a_fractional a then (v == w)%Q else (Qabs (v - w) <= last_place (output_radix a) (a_precision a))%Q.
Proof.
  intros Ha R R'. destruct (a_fractional a) eqn:F.
  - destruct R as [(_ & T)|(F' & _)]; [|congruence]. destruct R' as [(_ & T')|(F' & _)]; [|congruence]. exact (fraction_value _ _ _ T T').
  - destruct (result_shows a v s Ha F R) as (q & S & N). destruct (result_shows a w s Ha F R') as (q' & S' & N').
    pose proof (output_radix_ok a Ha) as Hr. pose proof (shows_unique _ _ _ _ Hr S' S) as E.
    apply (same_shown _ _ _ _ q); [lia|exact N|]. exact (nearest_eq _ _ _ _ _ E N').
Qed.
Lemma shown_close a v s q : valid_settings a -> a_fractional a = false -> result_text a v s -> shows (output_radix a) (without_commas s) q ->
  (Qabs (q - v) <= last_place (output_radix a) (a_precision a) / 2)%Q.
Proof.
  intros Ha F R S. destruct (result_shows a v s Ha F R) as (q' & S' & N'). pose proof (output_radix_ok a Ha) as Hr.
  apply half_unit; [lia|]. refine (nearest_eq _ _ _ _ _ (shows_unique _ _ _ _ Hr S' S) N').
Qed.
Lemma more_precise a p v s s' q q' : valid_settings a -> a_fractional a = false -> (a_precision a <= p)%N -> (p < 256)%N ->
  result_text a v s -> result_text (with_precision p a) v s' ->
  shows (output_radix a) (without_commas s) q -> shows (output_radix a) (without_commas s') q' -> (Qabs (q' - v) <= Qabs (q - v))%Q.
Proof.
  intros Ha F Lp Hp R R' S S'. pose proof (output_radix_ok a Ha) as Hr.
  assert (Ha' : valid_settings (with_precision p a)).
  { destruct Ha as (H1 & H2 & H3 & H4). split; [exact H1|]. split; [exact H2|]. split; [|exact H4]. exact Hp. }
  destruct (result_shows a v s Ha F R) as (x & X & N). destruct (result_shows (with_precision p a) v s' Ha' F R') as (x' & X' & N').
  change (output_radix (with_precision p a)) with (output_radix a) in X', N'. change (a_precision (with_precision p a)) with p in N'.
  rewrite (shows_unique _ _ _ _ Hr S X), (shows_unique _ _ _ _ Hr S' X'). apply (proj2 N'). eapply representable_more; [exact Lp|]. exact (proj1 N).
Qed.

Lemma formatted_opp a v w t t' : valid_settings a -> canon v -> canon w -> (w == - v)%Q ->
  format_result (E := failure) a v = Ok t -> format_result (E := failure) a w = Ok t' ->
  (0 < v -> t' = lit "-" ++ t)%Q /\ (v < 0 -> t = lit "-" ++ t')%Q /\ (v == 0 -> t' = t)%Q.
Proof.
  intros Ha Cv Cw E F F'. apply (format_shows _ _ _ Ha Cv) in F. apply (format_shows _ _ _ Ha Cw) in F'.
  pose proof (output_radix_ok a Ha) as (Hr & _). split; [|split]; intros H.
  - eapply result_text_unique; [exact Hr|exact F'|]. eapply result_text_eq; [symmetry; exact E|]. apply result_opp; assumption.
  - eapply result_text_unique; [exact Hr|exact F|]. apply (result_text_eq _ (- w)); [rewrite E; ring|]. apply result_opp; [rewrite E; lra|exact F'].
  - eapply result_text_unique; [exact Hr|exact F'|]. eapply result_text_eq; [|exact F]. rewrite E, H. reflexivity.
Qed.
Lemma opposite_line pr ord ord' x line line' se se1 se2 r1 r2 ts ts' v :
  working_session se -> is_expression (a_radix (s_args se)) line ts -> is_expression (a_radix (s_args se)) line' ts' ->
  written ts' = TBin Subtract :: in_parentheses (written ts) -> comes_to pr (s_args se) (after_recording se) ts v ->
  calculate pr ord x line se = (se1, r1) -> calculate pr ord' x line' se = (se2, r2) ->
  exists t t', r1 = Ok t /\ r2 = Ok t' /\ (0 < v -> t' = lit "-" ++ t)%Q /\ (v < 0 -> t = lit "-" ++ t')%Q /\ (v == 0 -> t' = t)%Q.
Proof.
  intros W T T' Ew Ct C1 C2. rewrite (working_pure _ _ _ _ _ _ _ _ W T C1), (working_pure _ _ _ _ _ _ _ _ W T' C2). clear C1 C2.
  pose proof (recording_calm se W) as Nf. destruct (recording_ok se (proj1 (proj2 W))) as (Rok & _). pose proof (proj1 W) as Va.
  assert (Ha : settings_ok (s_args se)) by (destruct Va as ((Hr & _) & _ & Hp' & He); split; [exact Hp'|]; split; [exact He|lia]).
  pose proof (typed_canon _ _ _ _ _ _ Va Rok T Ct) as Cv.
  pose proof (comes_to_stands _ _ _ _ _ Rok Nf Ct) as St.
  destruct (St ts eq_refl) as (n & D & E).
  assert (St' : stands pr (s_args se) (looked (after_recording se)) (TBin Subtract :: in_parentheses (written ts)) (Qred (- v))).
  { change (TBin Subtract :: in_parentheses (written ts)) with (SpecLaws.formula_text (fun _ => written ts) (SpecLaws.Opposite (SpecLaws.Part 0))).
    apply (formula_stands pr (s_args se) (looked (after_recording se)) (fun _ => written ts) (fun _ => v)); [exact Ha|intros _; split; [exact Cv|exact St]|intros []|].
    apply (SpecLaws.dn_opposite _ _ v); [constructor; reflexivity|reflexivity]. }
  destruct (St' ts' Ew) as (n' & D' & E').
  rewrite (pure_reply_tree _ _ _ _ _ _ (lt_expression _ _ D)), (pure_reply_tree _ _ _ _ _ _ (lt_expression _ _ D')). cbn [st_root st_var]. rewrite E, E'. cbn [bind].
  assert (Cw : canon (Qred (- v))) by apply canon_Qred.
  destruct (format_text (E := failure) (s_args se) v Va Cv) as (t & F & _). destruct (format_text (E := failure) (s_args se) _ Va Cw) as (t' & F' & _).
  exists t, t'. split; [exact F|]. split; [exact F'|]. apply (formatted_opp (s_args se) v (Qred (- v))); auto. apply Qred_correct.
Qed.
