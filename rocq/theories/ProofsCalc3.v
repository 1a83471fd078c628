(** ProofsCalc3.v -- expression lines and command lines. *)
From Verif Require Import Base Position Num TokenTypes Errors Token Operations SavedData Variables InputHistory
                          SyntaxTree Commands Calculate SpecGrammar SpecEval SpecHistory SpecCalc.
From Verif Require Import ProofsNum ProofsLex ProofsLex2 ProofsSyntax ProofsParse ProofsParse2 ProofsParse3 ProofsEval ProofsEval2 ProofsEval3 ProofsDb ProofsDb2 ProofsDb4 ProofsPrint ProofsPrint4 ProofsCalc ProofsCalc2.
From Coq Require Import String Permutation.
Local Open Scope nat_scope.
Local Open Scope list_scope.

(** the history part of the database is left alone *)
Definition hist_kept (o o' : option saved_data) : Prop :=
  match o, o' with
  | None, None => True
  | Some sd, Some sd' => d_hist (sd_db sd') = d_hist (sd_db sd) /\ d_meta (sd_db sd') = d_meta (sd_db sd) /\
      d_tags (sd_db sd') = d_tags (sd_db sd) /\ sd_pos sd' = sd_pos sd
  | _, _ => False
  end.
Lemma hist_kept_refl o : hist_kept o o.
Proof. destruct o; cbn; auto. Qed.
Lemma hist_kept_trans a b c : hist_kept a b -> hist_kept b c -> hist_kept a c.
Proof.
  destruct a, b, c; cbn; try contradiction; auto. intros (A1 & A2 & A3 & A4) (B1 & B2 & B3 & B4). repeat split; congruence.
Qed.
Lemma same_odb_hist a b : same_odb a b -> hist_kept a b.
Proof. destruct a, b; cbn; try contradiction; auto. intros (_ & A & B & C & D & _). auto. Qed.
Lemma same_values_hist s s' : same_values s s' -> hist_kept (e_db s) (e_db s').
Proof. intros (_ & B & _). destruct (e_db s), (e_db s'); try contradiction; cbn; auto. destruct B as (-> & -> & _). auto. Qed.

Lemma valid_settings_ok a : valid_settings a -> settings_ok a.
Proof. intros (A & _ & B & C). unfold radix_ok in A. repeat split; auto. lia. Qed.
Lemma format_result_ok {E} a v : valid_settings a -> exists text, @format_result E a v = Ok text.
Proof.
  intros (A & B & _). unfold format_result. destruct (a_fractional a); [eauto|].
  assert (R : radix_ok (match a_convert_to_radix a with Some r => r | None => a_radix a end)) by (destruct (a_convert_to_radix a); auto).
  destruct (make_decimal_spec (E := E) v _ (a_precision a) (a_upper a) R) as (ids & fds & neg & s & H & _). rewrite H. eauto.
Qed.

(** ** Expression lines *)
Definition line_value (pr : profile) (a : args) (s : env) (n : node) (v : Q) : Prop :=
  meaning (var_result s) (power_with pr a) n (Value v).
Lemma assignment_tree ts t x n : syntax_tree_new ts = Ok t -> assignment ts x n -> exists p, t = mkTree (Some (mkPositioned x p)) n.
Proof.
  intros P (p & q & rest & -> & D). exists p. apply parse_iff in P. eapply line_tree_unique; [exact P|]. constructor. exact D.
Qed.
Lemma runtime_of_database s names id e s' : (e_db s = None -> id = None) -> touch_all names id s = (s', Err e) -> e_db s <> None.
Proof.
  intros Hid E N. rewrite (Hid N) in E. unfold touch_all in E. destruct (e_vars s) as [m|]; [|discriminate E]. rewrite N in E.
  assert (L : forall l, touch_loop l None m None = (m, None, Ok tt)).
  { induction l as [|y l IH]; [reflexivity|]. cbn [touch_loop]. exact IH. }
  rewrite L in E. discriminate E.
Qed.
Lemma body_expression pr ord x input id a s a' s' r ts :
  valid_settings a -> env_ok s -> (e_db s = None -> id = None) -> tokenize input (a_radix a) = Ok (PTokens ts) ->
  calculate_body pr ord x input id a s = (a', s', r) ->
  a' = a /\ env_ok s' /\ hist_kept (e_db s) (e_db s') /\ line_reply pr a s ts r /\
  ((same_variables s s' /\ (forall text, r = Ok text -> forall y n, ~ assignment ts y n)) \/
   (exists y n v, assignment ts y n /\ line_value pr a s n v /\ canon v /\ e_vars s <> None /\ assigned s s' y v /\
      ((r = @format_result failure a v /\ disk_updated s' y v) \/ ((exists e, r = Err (RuntimeError e)) /\ disk_kept s s' y)))).
Proof.
  intros Ha Hs Hid T. unfold calculate_body. rewrite T.
  destruct (touch_all (ord (token_variables ts)) id s) as [s1 r1] eqn:Et. destruct (touch_all_settled _ _ _ _ _ Et) as (St & Np & Ne).
  pose proof (settled_ok _ _ St Hs) as Hs1. pose proof (settled_same _ _ St) as Sv.
  assert (Hk : hist_kept (e_db s) (e_db s1)) by (apply same_odb_hist; exact (proj2 St)).
  destruct r1 as [u|e|p]; [|destruct (Ne e eq_refl) as (e' & ->)|destruct (Np p eq_refl)].
  2:{ intros E. apply pair_equal_spec in E as [E <-]. apply pair_equal_spec in E as [<- <-]. repeat (split; [solve [auto]|]).
      split; [apply lr_database; eapply runtime_of_database; eauto|]. left. split; [exact Sv|discriminate]. }
  destruct ts as [|t0 ts'].
  { intros E. apply pair_equal_spec in E as [E <-]. apply pair_equal_spec in E as [<- <-]. repeat (split; [solve [auto]|]).
    split; [apply lr_blank; reflexivity|]. left. split; [exact Sv|]. intros text _ y n (p & q & rest & X & _). discriminate X. }
  remember (t0 :: ts') as ts eqn:Ets. assert (Hne : ts <> []) by (subst ts; discriminate). clear Ets t0 ts'.
  destruct (syntax_tree_new ts) as [t|e|p] eqn:P.
  3:{ exfalso. exact (parse_total ts p P). }
  2:{ intros E. apply pair_equal_spec in E as [E <-]. apply pair_equal_spec in E as [<- <-]. repeat (split; [solve [auto]|]).
      split.
      - apply lr_syntax; [exact Hne|intros t L; apply parse_iff in L; congruence|]. apply parse_told; [|exact P].
        apply tokenize_layout in T as (_ & T & _); [exact T|]. apply radix_ok_spec. destruct Ha as (Ha & _). unfold SpecCalc.radix_ok in Ha. lia.
      - left. split; [exact Sv|discriminate]. }
  destruct (tree_execute pr a t id s1) as [s2 r2] eqn:Ex. intros E. apply pair_equal_spec in E as [E <-]. apply pair_equal_spec in E as [<- <-].
  pose proof (typed_literals input (a_radix a) ts t (proj1 Ha) T P) as Lit.
  unfold tree_execute in Ex. destruct (exec pr a (st_root t) s1) as [s3 r3] eqn:Ee.
  destruct (exec_sound pr a (power_with pr a) (exec_power_sound pr a (valid_settings_ok _ Ha)) s1 Hs1 _ Lit s1 (grows_refl s1) s3 r3 Ee) as (G & M & C).
  pose proof (grows_ok _ _ Hs1 G) as Hs3. pose proof (grows_same _ _ Hs1 G) as SV.
  apply (proj1 (meaning_mono _ (var_result s) _ (fun y p r => settled_result s s1 y p r St))) in M.
  pose proof (same_variables_trans _ _ _ Sv (values_same _ _ Hs1 G)) as SV3.
  assert (Hk3 : hist_kept (e_db s) (e_db s3)) by (eapply hist_kept_trans; [exact Hk|apply same_values_hist; exact SV]).
  assert (Root : derives 5 ts (st_root t) \/ exists y, assignment ts y (st_root t)).
  { apply parse_iff in P. inversion P as [ts0 n D|y p q ts0 n D]; subst; cbn [st_root]; [left; exact D|right]. exists y, p, q, ts0. auto. }
  destruct r3 as [v|e|p]; cbn [then_do] in Ex; cbn [result_of] in M.
  2:{ apply pair_equal_spec in Ex as [<- <-]. split; [reflexivity|]. split; [exact Hs3|]. split; [exact Hk3|].
      split; [eapply lr_fails; [exact Root|exact M]|]. left. split; [exact SV3|discriminate]. }
  2:{ apply pair_equal_spec in Ex as [<- <-]. split; [reflexivity|]. split; [exact Hs3|]. split; [exact Hk3|].
      split; [eapply lr_crashes; [exact Root|exact M]|]. left. split; [exact SV3|discriminate]. }
  specialize (C v eq_refl). destruct (st_var t) as [[y p]|] eqn:Ev.
  2:{ apply pair_equal_spec in Ex as [<- <-]. split; [reflexivity|]. split; [exact Hs3|]. split; [exact Hk3|].
      assert (D : derives 5 ts (st_root t)).
      { apply parse_iff in P. inversion P; subst; [assumption|discriminate Ev]. }
      split.
      - destruct (format_text (E := failure) a v Ha C) as (text & F & RT). rewrite F. eapply lr_value; eauto.
      - left. split; [exact SV3|]. intros text _ y n A. destruct (assignment_tree _ _ _ _ P A) as (p & ->). discriminate Ev. }
  assert (A : assignment ts y (st_root t)).
  { apply parse_iff in P. inversion P as [ts0 n D|y0 p0 q0 ts0 n D]; subst; cbn [st_root st_var] in *; [discriminate Ev|]. injection Ev as <- <-.
    exists p0, q0, ts0. auto. }
  assert (Hpos : nth_error ts 0 = Some (tk (TVariable y) p)).
  { apply parse_iff in P. inversion P as [ts0 n D|y0 p0 q0 ts0 n D]; subst; cbn [st_root st_var] in *; [discriminate Ev|]. injection Ev as <- <-. reflexivity. }
  cbn [pd_value pd_pos] in Ex. destruct (e_vars s3) as [m|] eqn:Em.
  2:{ apply pair_equal_spec in Ex as [<- <-]. split; [reflexivity|]. split; [exact Hs3|]. split; [exact Hk3|].
      split; [eapply lr_no_store; [exact A|exact Hpos|]|left; split; [exact SV3|discriminate]].
      destruct SV3 as (X & _). apply X. exact Em. }
  assert (Hstore : e_vars s <> None).
  { destruct SV3 as (X & _). rewrite X, Em. discriminate. }
  destruct (vs_update m y v id (e_db s3)) as [[m' odb'] r4] eqn:U. apply pair_equal_spec in Ex as [<- <-].
  destruct (update_spec s3 y v id m m' odb' r4 Hs3 C Em U) as (Hok & (As0 & As1 & As2 & As4 & As3) & Np4 & Hk4 & Hr).
  split; [reflexivity|]. split; [exact Hok|]. split; [eapply hist_kept_trans; [exact Hk3|]; exact Hk4|].
  assert (AS : assigned s (mkEnv (Some m') odb') y v).
  { destruct SV3 as (X1 & X2 & X3 & X5 & X4). split; [rewrite X2; exact As0|]. split; [exact As1|]. split; [|split]; intros z w Hz; [rewrite X3; apply As2; exact Hz| |rewrite X4; apply As3; exact Hz].
    intros K. apply As4; [exact Hz|]. apply X5. exact K. }
  split.
  - destruct r4 as [u4|e4|p4]; [|apply lr_database|destruct (Np4 p4 eq_refl)].
    + destruct (format_text (E := failure) a v Ha C) as (text & F & RT). rewrite F. eapply lr_value; eauto.
    + intros N. assert (N3 : e_db s3 = None) by (destruct SV3 as (_ & X & _); apply X; exact N).
      unfold vs_update in U. rewrite N3, (Hid N) in U. apply pair_equal_spec in U as [_ U]. discriminate U.
  - right. exists y, (st_root t), v. split; [exact A|]. split; [exact M|]. split; [exact C|]. split; [exact Hstore|]. split; [exact AS|].
    destruct Hr as [(-> & Du)|((e & ->) & Dk & _)].
    + left. split; [reflexivity|exact Du].
    + right. split; [eauto|]. intros w. destruct SV3 as (_ & _ & _ & _ & X4). rewrite X4. apply Dk.
Qed.
