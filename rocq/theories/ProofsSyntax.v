(** ProofsSyntax.v -- syntax complaints are true (C72): the readers of src/syntax_tree.rs. *)
From Verif Require Import Base Position Num TokenTypes Errors Token Operations SavedData Variables SyntaxTree.
From Verif Require Import SpecLex SpecGrammar SpecCommands SpecSyntax ProofsPosition ProofsLex2 ProofsParse ProofsParse2 ProofsParse3.
From Coq Require Import String.
Local Open Scope list_scope.

(** * Facts about derived token sequences *)

Lemma plain_text t : (forall v, t <> TNumber v) -> show_token t = token_text t.
Proof. destruct t; try reflexivity. intros H. destruct (H v eq_refl). Qed.

Lemma balanced_app a b : balanced a -> balanced b -> balanced (a ++ b).
Proof.
  induction 1 as [|t p ts N1 N2 H IH|p q ts us H IH H2 IH2]; intros Hb; cbn [app].
  - exact Hb.
  - constructor; auto.
  - rewrite <- app_assoc. cbn [app]. apply bal_group; auto.
Qed.
Lemma balanced_one t p : t <> TOpen -> t <> TClose -> balanced [tk t p].
Proof. intros. constructor; auto. constructor. Qed.

Definition minus_first (ts : list ptoken) : Prop := exists p r, ts = tk (TBin Subtract) p :: r.
Definition operand_last (ts : list ptoken) : Prop := exists a t p, ts = a ++ [tk t p] /\ closes_operand t.
Definition operand_first (ts : list ptoken) : Prop := exists t p r, ts = tk t p :: r /\ opens_operand t.

Lemma derives_shape :
  (forall k ts n, derives k ts n -> balanced ts /\ operand_last ts /\ (operand_first ts \/ (1 <= k /\ minus_first ts))) /\
  (forall ts ns, derives_args ts ns -> balanced ts) /\
  (forall ts ns, derives_list ts ns -> balanced ts).
Proof.
  apply derives_mutind; intros.
  - split; [apply balanced_one; discriminate|]. split; [exists [], (TNumber v), p|left; exists (TNumber v), p, []]; simpl; auto.
  - split; [apply balanced_one; discriminate|]. split; [exists [], (TVariable x), p|left; exists (TVariable x), p, []]; simpl; auto.
  - destruct H0 as (B & (a & t & q & -> & E) & _). split; [constructor; auto; discriminate|].
    split; [exists (tk (TUn o) p :: a), t, q; simpl; auto|]. left. eexists _, _, _. split; [reflexivity|exact I].
  - destruct H0 as (B & _ & _). split; [apply bal_group; auto; constructor|].
    split; [exists (tk TOpen p :: ts), TClose, q; simpl; auto|]. left. eexists _, _, _. split; [reflexivity|exact I].
  - destruct H0 as (B & (a & t & q & -> & E) & _). split; [constructor; auto; discriminate|].
    split; [exists (tk (TFun f) p :: a), t, q; simpl; auto|]. left. eexists _, _, _. split; [reflexivity|exact I].
  - split; [apply bal_token; [discriminate|discriminate|]; apply bal_group; auto; constructor|].
    split; [exists (tk (TFun f) p :: tk TOpen o :: ts), TClose, c; simpl; auto|]. left. eexists _, _, _. split; [reflexivity|exact I].
  - destruct H0 as (B & (a & t & q & -> & E) & _). split; [constructor; auto; discriminate|].
    split; [exists (tk (TBin Subtract) p :: a), t, q; simpl; auto|]. right. split; [lia|]. eexists _, _. reflexivity.
  - destruct H1 as (B1 & _ & F). destruct H3 as (B2 & (a0 & t & q & -> & E) & _).
    split; [apply balanced_app; [exact B1|constructor; auto; discriminate]|].
    split; [exists (ts1 ++ tk (TBin o) p :: a0), t, q; rewrite <- app_assoc; simpl; auto|].
    destruct F as [(u & r & w & -> & F)|(Hk & r & w & ->)]; [left; eexists _, _, _; split; [reflexivity|exact F]|right; split; [exact Hk|]; eexists _, _; reflexivity].
  - destruct H0 as (B & L & F). split; [exact B|]. split; [exact L|]. destruct F as [F|(Hk & F)]; [left; exact F|right; split; [lia|exact F]].
  - constructor.
  - assumption.
  - apply H0.
  - destruct H0 as (B & _). apply balanced_app; [exact B|constructor; auto; discriminate].
Qed.
Lemma derives_balanced k ts n : derives k ts n -> balanced ts.
Proof. intros H. apply (proj1 derives_shape) in H. tauto. Qed.
Lemma derives0_first ts n : derives 0 ts n -> operand_first ts.
Proof. intros H. apply (proj1 derives_shape) in H as (_ & _ & [H|(H & _)]); [exact H|lia]. Qed.
Lemma seg_balanced k its ts : seg k its ts -> balanced ts.
Proof.
  induction 1; [constructor|apply balanced_app; [eapply derives_balanced; eauto|assumption]|constructor; auto; discriminate].
Qed.

(** * The passes *)

(** What the tokens of an operand look like, without its level. *)
Definition blob (ts : list ptoken) (n : node) : Prop :=
  operand_last ts /\ (operand_first ts \/ minus_first ts) /\ (in_order ts -> token_span ts (node_position n)).
Inductive shape : bool -> list ooo -> list ptoken -> Prop :=
| sh_nil : forall b, shape b [] []
| sh_operand : forall b n ts its us, blob ts n -> (b = true -> operand_first ts) -> shape true its us ->
    shape b (IOperand n :: its) (ts ++ us)
| sh_operator : forall b q its us, shape false its us ->
    shape b (IOperator q :: its) (tk (TBin (pd_value q)) (pd_pos q) :: us).

Definition is_operand (x : ooo) : bool := match x with IOperand _ => true | _ => false end.
Definition last_flag (b : bool) (its : list ooo) : bool := fold_left (fun _ x => is_operand x) its b.

Lemma shape_app b x y ts : shape b (x ++ y) ts <-> exists t1 t2, ts = t1 ++ t2 /\ shape b x t1 /\ shape (last_flag b x) y t2.
Proof.
  revert b ts. induction x as [|i x IH]; intros b ts; cbn [app last_flag fold_left].
  - split; [intros H; exists [], ts; repeat split; [constructor|exact H]|].
    intros (t1 & t2 & -> & H1 & H2). inversion H1; subst. exact H2.
  - split.
    + intros H. inversion H as [|b0 n t its u Bl F H'|b0 q its u H']; subst.
      * apply IH in H' as (t1 & t2 & -> & H1 & H2). exists (t ++ t1), t2. rewrite app_assoc. repeat split; [constructor; assumption|exact H2].
      * apply IH in H' as (t1 & t2 & -> & H1 & H2). eexists (_ :: t1), t2. repeat split; [constructor; assumption|exact H2].
    + intros (t1 & t2 & -> & H1 & H2). inversion H1 as [|b0 n t its u Bl F H'|b0 q its u H']; subst.
      * rewrite <- app_assoc. constructor; [exact Bl|exact F|]. apply IH. eauto 6.
      * cbn [app]. constructor. apply IH. eauto 6.
Qed.
Lemma last_flag_app b x y : last_flag b (x ++ y) = last_flag (last_flag b x) y.
Proof. apply fold_left_app. Qed.

Lemma derives_blob k ts n : derives k ts n -> blob ts n.
Proof.
  intros H. pose proof (proj1 derives_span k ts n H) as S. apply (proj1 derives_shape) in H as (_ & L & F).
  split; [exact L|]. split; [destruct F as [F|[_ F]]; auto|exact S].
Qed.
Lemma seg_shape its ts b : seg 0 its ts -> shape b its ts.
Proof.
  intros H. revert b. induction H as [|n ts its us D H IH|q its us H IH]; intros b; constructor; auto.
  - eapply derives_blob; eauto.
  - intros _. eapply derives0_first; eauto.
Qed.
Lemma last_cons {A} (a : list A) t b c : a ++ [t] = b ++ c -> c <> [] -> exists c', c = c' ++ [t].
Proof.
  intros E N. destruct (@exists_last _ c N) as (c' & x & ->). rewrite app_assoc in E. apply app_inj_tail in E as [_ ->]. eauto.
Qed.
Lemma blob_neg ts n p : blob ts n -> blob (tk (TBin Subtract) p :: ts) (NUn Negate p n).
Proof.
  intros ((a & t & q & -> & E) & _ & S). split; [exists (tk (TBin Subtract) p :: a), t, q; auto|].
  split; [right; eexists _, _; reflexivity|]. intros Ho.
  apply (token_span_app [tk (TBin Subtract) p]); [exact Ho|apply token_span_one|apply S].
  apply (in_order_app [_]) in Ho. tauto.
Qed.
Lemma blob_bin t1 t2 a b o p : blob t1 a -> blob t2 b -> blob (t1 ++ tk (TBin o) p :: t2) (NBin o p a b).
Proof.
  intros (_ & F & S1) ((c & t & q & -> & E) & _ & S2). split; [exists (t1 ++ tk (TBin o) p :: c), t, q; rewrite <- app_assoc; auto|].
  split.
  - destruct F as [(u & r & w & -> & F)|(r & w & ->)]; [left; eexists _, _, _; split; [reflexivity|exact F]|right; eexists _, _; reflexivity].
  - intros Ho. pose proof Ho as Ho'. apply in_order_app in Ho as (O1 & O2 & _). pose proof O2 as O2'. apply (in_order_app [_]) in O2 as (_ & O2 & _).
    cbn [node_position]. replace (from_span p _) with (from_span (node_position a) (from_span p (node_position b)))
      by (rewrite !from_span_assoc, (from_span_comm (node_position a) p); reflexivity). apply token_span_app; [exact Ho'|apply S1; exact O1|].
    apply (token_span_app [tk (TBin o) p]); [exact O2'|apply token_span_one|apply S2; exact O2].
Qed.

Lemma blob_first_bin t1 o p t2 : operand_first t1 -> operand_first (t1 ++ tk (TBin o) p :: t2).
Proof. intros (u & r & w & -> & F). eexists _, _, _. split; [reflexivity|exact F]. Qed.
Lemma bin_pass_shape slice f : forall ooos temp ts, shape false (temp ++ ooos) ts -> shape false (bin_pass f slice ooos temp) ts.
Proof.
  induction f as [|f IH]; intros ooos temp ts H; [exact H|].
  assert (Hmove : forall x rest, ooos = x :: rest -> shape false (bin_pass f slice rest (temp ++ [x])) ts).
  { intros x rest ->. apply IH. rewrite <- app_assoc. exact H. }
  destruct ooos as [|[a|q] rest]; cbn [bin_pass]; [rewrite app_nil_r in H; exact H| |apply Hmove; reflexivity].
  destruct rest as [|[b|q] rest]; try (apply Hmove; reflexivity).
  destruct rest as [|[b|q'] rest]; try (apply Hmove; reflexivity).
  destruct (in_operator_slice _ _); [|apply Hmove; reflexivity].
  apply IH. apply shape_app in H as (t1 & t2 & -> & H1 & H2). apply shape_app. exists t1. 
  inversion H2 as [|b0 n t its u Bl F H'|]; subst. inversion H' as [| |b0 q0 its u0 H'']; subst.
  inversion H'' as [|b0 n t' its u' Bl' F' H3|]; subst.
  exists ((t ++ tk (TBin (pd_value q)) (pd_pos q) :: t') ++ u'). split; [rewrite <- app_assoc; reflexivity|]. split; [exact H1|].
  constructor; [apply blob_bin; assumption| |exact H3]. intros X. apply blob_first_bin. auto.
Qed.
Lemma neg_pass_shape f : forall back temp ts, shape false (rev back ++ temp) ts -> shape false (neg_pass f back temp) ts.
Proof.
  induction f as [|f IH]; intros back temp ts H; [exact H|].
  assert (Hmove : forall x rest, back = x :: rest -> shape false (neg_pass f rest (x :: temp)) ts).
  { intros x rest ->. apply IH. simpl in H. rewrite <- app_assoc in H. exact H. }
  destruct back as [|[n|q] rest]; cbn [neg_pass]; [exact H| |apply Hmove; reflexivity].
  destruct rest as [|[m|q] rest]; try (apply Hmove; reflexivity).
  destruct (_ && _) eqn:E; [|apply Hmove; reflexivity].
  apply andb_true_iff in E as [E E2]. destruct q as [o p]. destruct o; try discriminate.
  apply IH. simpl in H |- *. rewrite <- !app_assoc in H. rewrite <- app_assoc. cbn [app] in *.
  apply shape_app in H as (t1 & t2 & -> & H1 & H2). apply shape_app. exists t1.
  assert (Fl : last_flag false (rev rest) = false).
  { destruct rest as [|[m|q] rest]; [reflexivity|discriminate E2|]. cbn [rev]. rewrite last_flag_app. reflexivity. }
  rewrite Fl in *. inversion H2 as [| |b0 q0 its u0 H'']; subst. inversion H'' as [|b0 n0 t' its u' Bl' F' H3|]; subst.
  cbn [pd_value pd_pos]. exists ((tk (TBin Subtract) p :: t') ++ u'). split; [reflexivity|]. split; [exact H1|].
  constructor; [apply blob_neg; exact Bl'|discriminate|exact H3].
Qed.
Lemma passes_shape its ts : seg 0 its ts -> shape false (apply_passes its) ts.
Proof.
  intros H. rewrite apply_passes_eq. unfold bp. apply (seg_shape _ _ false) in H.
  assert (H1 : shape false (np its []) ts).
  { unfold np. apply neg_pass_shape. rewrite rev_involutive, app_nil_r. exact H. }
  repeat (apply bin_pass_shape; cbn [app]). exact H1.
Qed.

(** No minus sign that could be a negation is left. *)
Definition hd_operand (its : list ooo) : bool := match its with x :: _ => is_operand x | [] => false end.
Fixpoint nd (b : bool) (its : list ooo) : Prop :=
  match its with
  | [] => True
  | IOperand _ :: r => nd true r
  | IOperator q :: r => (b = false -> pd_value q = Subtract -> hd_operand r = false) /\ nd false r
  end.
Lemma neg_pass_nd f : forall back temp, List.length back <= f ->
  nd (hd_operand back) temp ->
  (forall q rest, hd_operand temp = true -> back = IOperator q :: rest -> pd_value q = Subtract -> hd_operand rest = true) ->
  nd false (neg_pass f back temp).
Proof.
  induction f as [|f IH]; intros back temp L N Q.
  { destruct back; [exact N|simpl in L; lia]. }
  destruct back as [|[n|q] rest]; cbn [neg_pass matches_operator]; [exact N| |].
  - assert (Hmove : (forall q r, rest = IOperator q :: r -> pd_value q = Subtract -> hd_operand r = true) ->
        nd false (neg_pass f rest (IOperand n :: temp))).
    { intros X. apply IH; [simpl in L; lia|exact N|]. intros q r _. apply X. }
    destruct rest as [|[m|q] rest]; try (apply Hmove; intros; discriminate).
    destruct (binop_eqb (pd_value q) Subtract) eqn:E; cbn [andb].
    2:{ apply Hmove. intros q0 r X. injection X as <- <-. intros Y. rewrite Y in E. discriminate. }
    destruct rest as [|[m|q'] rest].
    + apply IH; [simpl in *; lia|exact N|]. discriminate.
    + apply Hmove. intros q0 r X. injection X as <- <-. reflexivity.
    + cbn [is_operator]. apply IH; [simpl in *; lia|exact N|]. discriminate.
  - apply IH; [simpl in L; lia| |].
    + split; [|exact N]. intros Hr Hq. destruct (hd_operand temp) eqn:Ht; [|reflexivity]. rewrite (Q q rest eq_refl eq_refl Hq) in Hr. discriminate.
    + discriminate.
Qed.
Lemma nd_app b x y : nd b (x ++ y) -> nd (last_flag b x) y.
Proof.
  revert b. induction x as [|[n|q] x IH]; intros b H; [exact H| |]; cbn [app nd last_flag fold_left] in *.
  - apply IH. exact H.
  - apply IH. apply H.
Qed.
Lemma nd_replace b x y z : nd b (x ++ y) -> hd_operand z = hd_operand y -> nd (last_flag b x) z -> nd b (x ++ z).
Proof.
  revert b. induction x as [|[n|q] x IH]; intros b H E Hz; cbn [app nd last_flag fold_left] in *; [exact Hz|apply IH; auto|].
  destruct H as [H1 H2]. split; [|apply IH; auto]. destruct x as [|i x]; [|exact H1]. cbn [app] in *. rewrite E. exact H1.
Qed.
Lemma bin_pass_nd slice f : forall ooos temp, nd false (temp ++ ooos) -> nd false (bin_pass f slice ooos temp).
Proof.
  induction f as [|f IH]; intros ooos temp H; [exact H|].
  assert (Hmove : forall x rest, ooos = x :: rest -> nd false (bin_pass f slice rest (temp ++ [x]))).
  { intros x rest ->. apply IH. rewrite <- app_assoc. exact H. }
  destruct ooos as [|[a|q] rest]; cbn [bin_pass]; [rewrite app_nil_r in H; exact H| |apply Hmove; reflexivity].
  destruct rest as [|[b|q] rest]; try (apply Hmove; reflexivity).
  destruct rest as [|[b|q'] rest]; try (apply Hmove; reflexivity).
  destruct (in_operator_slice _ _); [|apply Hmove; reflexivity].
  apply IH. eapply nd_replace; [exact H|reflexivity|]. apply nd_app in H. cbn [nd] in *. tauto.
Qed.
Lemma passes_nd its : nd false (apply_passes its).
Proof.
  rewrite apply_passes_eq. unfold bp. repeat (apply bin_pass_nd; cbn [app]). unfold np. apply neg_pass_nd; [rewrite rev_length; lia|exact I|discriminate].
Qed.

(** * Leftovers of the passes *)
Lemma nothing_no post : nothing_follows post -> no_operand post.
Proof. apply no_end. Qed.
Lemma rest_no_operand : forall its us post, shape false its us -> nd false its -> hd_operand its = false -> nothing_follows post ->
  no_operand (us ++ post).
Proof.
  induction its as [|[n|q] its IH]; intros us post H N Hd Hp; [|discriminate|].
  - inversion H; subst. apply no_end. exact Hp.
  - inversion H as [| |b0 q0 its0 u0 H']; subst. cbn [app]. destruct N as [N1 N2].
    destruct q as [o p]. cbn [pd_value pd_pos] in *. destruct o; try (apply no_operator; discriminate).
    apply no_minus. apply (IH _ post); auto.
Qed.
Lemma between_spans us vs a b : in_order (us ++ vs) -> blob us a -> blob vs b -> forall c t q u r d, us = c ++ [tk t q] -> vs = tk u r :: d ->
  p_start (from_between (node_position a) (node_position b)) = p_start q + p_width q /\
  p_start (from_between (node_position a) (node_position b)) + p_width (from_between (node_position a) (node_position b)) = p_start r.
Proof.
  intros Ho (_ & _ & S1) (_ & _ & S2) c t q u r d E1 E2. apply in_order_app in Ho as (O1 & O2 & O).
  specialize (S1 O1). specialize (S2 O2). destruct (token_span_ends _ _ O1 S1) as (_ & _ & R1). destruct (token_span_ends _ _ O2 S2) as (_ & _ & R2).
  destruct S1 as (f1 & l1 & p1 & q1 & F1 & L1 & A1 & B1). destruct S2 as (f2 & l2 & p2 & q2 & F2 & L2 & A2 & B2).
  rewrite E1 in L1. apply app_inj_tail in L1 as [_ L1]. rewrite E2 in F2. injection F2 as F2 _.
  subst l1 f2. cbn [pd_pos] in *.
  assert (X : p_end q <= p_start r).
  { apply (O (tk t q) (tk u r)); [rewrite E1; apply in_or_app; right; left; reflexivity|rewrite E2; left; reflexivity]. }
  unfold p_end in *. destruct (node_position a) as [s1 w1], (node_position b) as [s2 w2]. cbn [p_start p_width] in *.
  assert (E : sort_nat [s1; s1 + w1; s2; s2 + w2] = [s1; s1 + w1; s2; s2 + w2]).
  { unfold sort_nat. cbn [fold_right insert_nat].
    replace (s2 <=? s2 + w2) with true by (symmetry; apply Nat.leb_le; lia). cbn [insert_nat].
    replace (s1 + w1 <=? s2) with true by (symmetry; apply Nat.leb_le; lia). cbn [insert_nat].
    replace (s1 <=? s1 + w1) with true by (symmetry; apply Nat.leb_le; lia). reflexivity. }
  unfold from_between. cbn [p_start p_width]. rewrite E. cbn [nth p_start p_width]. lia.
Qed.

Definition told (L : list ptoken) (e : positioned syntax_error) : Prop :=
  syntax_complaint L (show_syntax_error (pd_value e)) (pd_pos e).
Lemma finish_told L pre its ts post e : in_order L -> L = pre ++ ts ++ post -> expression_begins pre -> seg 0 its ts ->
  nothing_follows post -> finish_expression its = Err e -> told L e.
Proof.
  intros Ho EL Hb Hs Hp H. pose proof (passes_shape _ _ Hs) as Sh. pose proof (passes_nd its) as Nd. unfold finish_expression in H.
  destruct (apply_passes its) as [|[a|q] rest]; [discriminate| |].
  - inversion Sh as [|b0 n t its0 u Bl F H'|]; subst its0 n ts b0. destruct rest as [|[b|q] rest]; [discriminate| |].
    + apply err_inj in H. subst e. inversion H' as [|b0 n t' its0 u' Bl' F' H''|]; subst its0 n u b0. specialize (F' eq_refl).
      destruct F' as (u0 & r & d & Et' & F'). pose proof Bl as (( c & x & q & Et & El) & _ & _).
      assert (Ho2 : in_order (t ++ t')).
      { rewrite EL in Ho. apply in_order_app in Ho as (_ & Ho & _). rewrite <- !app_assoc in Ho. rewrite app_assoc in Ho. apply in_order_app in Ho. tauto. }
      destruct (between_spans t t' a b Ho2 Bl Bl' c x q u0 r d Et Et') as (P1 & P2).
      unfold told. cbn [pd_value pd_pos show_syntax_error].
      apply (sc_adjacent L (pre ++ c) x q u0 r (d ++ u' ++ post)); auto.
      rewrite EL, Et, Et'. rewrite <- !app_assoc. reflexivity.
    + inversion H' as [| |b0 q0 its0 u' H'']; subst q0 its0 u b0.
      assert (e = pmap (fun o => MissingOperand (TBin o)) q /\ hd_operand rest = false) as (-> & Hd).
      { destruct rest as [|[b|q'] rest]; [apply err_inj in H; auto|discriminate|apply err_inj in H; auto]. }
      unfold told, pmap. cbn [pd_value pd_pos show_syntax_error]. rewrite plain_text by discriminate.
      apply (sc_right L (pre ++ t) (pd_value q) (pd_pos q) (u' ++ post)).
      * rewrite EL. rewrite <- !app_assoc. reflexivity.
      * eapply rest_no_operand; eauto. cbn [nd] in Nd. tauto.
  - inversion Sh as [| |b0 q0 its0 u' H']; subst q0 its0 ts b0.
    assert (e = pmap (fun o => MissingOperand (TBin o)) q) as -> by (destruct rest; apply err_inj in H; auto).
    unfold told, pmap. cbn [pd_value pd_pos show_syntax_error]. rewrite plain_text by discriminate.
    destruct Nd as [N1 N2]. destruct (binop_eqb (pd_value q) Subtract) eqn:Eq.
    + apply (sc_right L pre (pd_value q) (pd_pos q) (u' ++ post)); [exact EL|].
      eapply rest_no_operand; eauto. apply N1; [reflexivity|]. destruct (pd_value q); try discriminate; reflexivity.
    + apply (sc_left L pre (pd_value q) (pd_pos q) (u' ++ post)); [exact EL| |exact Hb]. intros X. rewrite X in Eq. discriminate.
Qed.

(** * The readers *)
Lemma bind_told {A B} L (x : pres A) (g : A -> pres B) e :
  bind x g = Err e -> (forall e', x = Err e' -> told L e') ->
  (forall a, x = Ok a -> g a = Err e -> told L e) -> told L e.
Proof. destruct x as [a|e0|q]; cbn [bind]; intros H H1 H2; [eauto| |discriminate]. injection H as <-. auto. Qed.
Lemma end_tok_follows e mid rest : end_tok e mid rest -> nothing_follows mid.
Proof. destruct e; simpl; [intros ->|intros ->|intros [-> _]]; simpl; auto. Qed.
Lemma no_call_last pre t p : (forall f, t <> TFun f) -> no_call (pre ++ [tk t p]).
Proof. intros N a f q E. apply app_inj_tail in E as [_ E]. injection E as E _. exact (N f E). Qed.
Lemma begins_no_call pre : expression_begins pre -> no_call pre.
Proof.
  destruct 1.
  - intros a f p E. destruct a; discriminate.
  - apply (no_call_last [tk (TVariable x) p]). discriminate.
  - apply no_call_last. discriminate.
  - apply no_call_last. discriminate.
Qed.
Lemma operand_no_call pre ts : operand_last ts -> no_call (pre ++ ts).
Proof. intros (a & t & p & -> & E). rewrite app_assoc. apply no_call_last. intros f ->. exact E. Qed.
Lemma operand_none f input rest : read_operand f input = Ok (None, rest) -> nothing_follows input.
Proof.
  destruct f as [|f]; [discriminate|]. cbn [read_operand].
  destruct (read_ooo f input) as [[r rest']|e|p] eqn:E; cbn [bind]; try discriminate.
  destruct r as [n|q|en]; [discriminate| |].
  - destruct (binop_eqb _ _); [|discriminate]. destruct (read_unary _ _ _ _) as [[? ?]|?|?]; discriminate.
  - intros _. apply (readers_sound f) in E. eapply end_tok_follows; eauto.
Qed.

Section Line.
  Variable L : list ptoken.
  Hypothesis Ho : in_order L.
  Variable base : nat.
  Hypothesis Hassign : forall pre p post, L = pre ++ tk TAssign p :: post -> base <= List.length pre ->
    forall x q, pre <> [tk (TVariable x) q].

  Lemma readers_told f :
    (forall pre input, L = pre ++ input -> base <= List.length pre -> expression_begins pre ->
       forall e, read_expression f input = Err e -> told L e) /\
    (forall pre mid input acc, L = pre ++ mid ++ input -> base <= List.length pre -> seg 0 acc mid -> no_call (pre ++ mid) ->
       forall e, read_items f input acc = Err e -> told L e) /\
    (forall pre input, L = pre ++ input -> base <= List.length pre -> (forall p r, input = tk TOpen p :: r -> no_call pre) ->
       forall e, read_ooo f input = Err e -> told L e) /\
    (forall pre input, L = pre ++ input -> base <= List.length pre -> (forall p r, input = tk TOpen p :: r -> no_call pre) -> operand_wanted pre ->
       forall e, read_operand f input = Err e -> told L e) /\
    (forall pre input o q, (L = pre ++ tk (TUn o) q :: input \/ (L = pre ++ tk (TBin Subtract) q :: input /\ o = Negate /\ operand_wanted pre)) ->
       base <= List.length pre -> forall e, read_unary f input o q = Err e -> told L e) /\
    (forall pre input q, L = pre ++ tk TOpen q :: input -> base <= List.length pre -> no_call pre ->
       forall e, read_paren f input q = Err e -> told L e) /\
    (forall pre input fn q, L = pre ++ tk (TFun fn) q :: input -> base <= List.length pre ->
       forall e, read_function f input fn q = Err e -> told L e) /\
    (forall pre fn p used input op ops comma, L = pre ++ tk (TFun fn) p :: tk TOpen op :: used ++ input -> base <= List.length pre ->
       match comma with Some cp => exists u, used = u ++ [tk TComma cp] /\ balanced u | None => used = [] end ->
       forall e, read_args f input op ops comma = Err e -> told L e).
  Proof.
    induction f as [|f (IHexpr & IHitems & IHooo & IHoperand & IHunary & IHparen & IHfun & IHargs)].
    { repeat split; intros; discriminate. }
    destruct (readers_sound f) as (SE & SI & SO & SP & SU & SPa & SF & SA).
    repeat match goal with |- _ /\ _ => split end.
    - intros pre input EL Hb B e H. cbn [read_expression] in H. eapply bind_told; [exact H| |].
      + intros e'. apply (IHitems pre [] input []); auto; [constructor|]. rewrite app_nil_r. apply begins_no_call; exact B.
      + intros [[ooos en] rest] E H'. apply SI in E as (its & ts & mid & Eo & -> & He & Hs). simpl in Eo. subst ooos.
        eapply bind_told; [exact H'| |discriminate].
        intros e' H2. eapply (finish_told L pre its ts mid); eauto. eapply end_tok_follows; eauto.
    - intros pre mid input acc EL Hb Hs Nc e H. cbn [read_items] in H. eapply bind_told; [exact H| |].
      + intros e'. apply (IHooo (pre ++ mid)); [rewrite <- app_assoc; exact EL|rewrite app_length; lia|intros _ _ _; exact Nc].
      + intros [r rest] E H'. apply SO in E. destruct r as [n|q|en]; [| |discriminate].
        * destruct E as (us & -> & Hd).
          eapply (IHitems pre (mid ++ us) rest); [rewrite <- app_assoc; exact EL|exact Hb| | |exact H'].
          -- apply seg_app; [exact Hs|]. rewrite <- (app_nil_r us). constructor; [exact Hd|constructor].
          -- rewrite app_assoc. apply operand_no_call. apply (proj1 derives_shape) in Hd. tauto.
        * subst input. eapply (IHitems pre (mid ++ [_]) rest); [rewrite <- app_assoc; exact EL|exact Hb| | |exact H'].
          -- apply seg_app; [exact Hs|]. constructor. constructor.
          -- rewrite app_assoc. apply no_call_last. discriminate.
    - intros pre input EL Hb Nc e H. cbn [read_ooo] in H. destruct input as [|[t p] input]; [discriminate|].
      cbn [pd_value pd_pos] in *. destruct t; try discriminate.
      + apply err_inj in H. subst e. unfold told. cbn [pd_value pd_pos show_syntax_error]. rewrite plain_text by discriminate.
        eapply sc_assign; [exact EL|]. eapply Hassign; eauto.
      + eapply bind_told; [exact H| |]; [|intros [n r] _; discriminate]. apply (IHparen pre); auto. eapply Nc; reflexivity.
      + eapply bind_told; [exact H| |]; [|intros [n r] _; discriminate]. apply (IHunary pre); auto.
      + eapply bind_told; [exact H| |]; [|intros [n r] _; discriminate]. apply (IHfun pre); auto.
    - intros pre input EL Hb Nc W e H. cbn [read_operand] in H. eapply bind_told; [exact H|apply (IHooo pre); auto|].
      intros [r rest] E H'. apply SO in E. destruct r as [n|[o q]|en]; [discriminate| |discriminate].
      subst input. cbn [pd_value pd_pos] in *. destruct (binop_eqb o Subtract) eqn:Eo.
      + assert (o = Subtract) by (destruct o; try discriminate; reflexivity). subst o.
        eapply bind_told; [exact H'| |]; [|intros [n r] _; discriminate]. apply (IHunary pre); auto.
      + apply err_inj in H'. subst e. unfold told, pmap. cbn [pd_value pd_pos show_syntax_error]. rewrite plain_text by discriminate.
        eapply sc_operator; [exact EL| |exact W]. intros ->. discriminate.
    - intros pre input o q D Hb e H. cbn [read_unary] in H. eapply bind_told; [exact H| |].
      + destruct D as [EL|(EL & -> & W)].
        * apply (IHoperand (pre ++ [tk (TUn o) q])); [rewrite <- app_assoc; exact EL|rewrite app_length; lia| |apply ow_prefix].
          intros p r _. apply no_call_last. discriminate.
        * apply (IHoperand (pre ++ [tk (TBin Subtract) q])); [rewrite <- app_assoc; exact EL|rewrite app_length; lia| |apply ow_minus; exact W].
          intros p r _. apply no_call_last. discriminate.
      + intros [[n|] rest] E H'; [discriminate|]. apply operand_none in E. apply err_inj in H'. subst e.
        unfold told. cbn [pd_value pd_pos show_syntax_error]. rewrite plain_text by discriminate. destruct D as [EL|(EL & -> & W)].
        * eapply sc_prefix; eauto.
        * eapply sc_negation; eauto.
    - intros pre input q EL Hb Nc e H. cbn [read_paren] in H. eapply bind_told; [exact H| |].
      + apply (IHexpr (pre ++ [tk TOpen q])); [rewrite <- app_assoc; exact EL|rewrite app_length; lia|apply eb_open].
      + intros [[root en] rest] E H'. apply SE in E as (ts & mid & -> & He & Hr).
        assert (Bts : balanced ts) by (destruct root; [eapply derives_balanced; eauto|subst ts; constructor]).
        destruct en as [cp|cp|]; simpl in He.
        * assert (e = mkPositioned (UnexpectedToken TComma) cp) as -> by (destruct root; apply err_inj in H'; auto).
          subst mid. unfold told. cbn [pd_value pd_pos show_syntax_error]. rewrite plain_text by discriminate.
          apply (sc_comma L (pre ++ tk TOpen q :: ts) cp rest); [rewrite <- app_assoc; exact EL|].
          right. exists pre, q, ts. auto.
        * destruct root; [discriminate|]. apply err_inj in H'. subst e ts mid. unfold told. cbn [pd_value pd_pos show_syntax_error].
          cbn [app] in EL. destruct (from_span_ends q cp) as [S1 E1].
          assert (X : p_end q <= p_start cp).
          { rewrite EL in Ho. apply in_order_app in Ho as (_ & O & _). apply (in_order_app [_]) in O as (_ & _ & O).
            apply (O (tk TOpen q) (tk TClose cp)); [left; reflexivity|left; reflexivity]. }
          unfold p_end in *. eapply sc_empty; [exact EL|exact Nc|lia|lia].
        * assert (e = mkPositioned MismatchedOpenParen q) as -> by (destruct root; apply err_inj in H'; auto).
          destruct He as [-> ->]. rewrite app_nil_r in EL. eapply sc_open; eauto.
    - intros pre input fn q EL Hb e H. cbn [read_function] in H.
      assert (Fun : nothing_follows input -> told L (mkPositioned (FunctionWithoutParensOrArgument fn) q)).
      { intros X. unfold told. cbn [pd_value pd_pos show_syntax_error]. change (show_fname fn) with (show_token (TFun fn)). rewrite plain_text by discriminate. eapply sc_function; eauto. }
      destruct input as [|[t p] input]; [apply err_inj in H; subst e; apply Fun; exact I|]. cbn [pd_value pd_pos] in H.
      assert (Op : t <> TOpen -> forall A (g : option node * list ptoken -> pres A),
          bind (read_operand f (tk t p :: input)) g = Err e -> (forall r, g r = Err e -> fst r = None /\ e = mkPositioned (FunctionWithoutParensOrArgument fn) q) -> told L e).
      { intros N A g Hg Hn. eapply bind_told; [exact Hg| |].
        - apply (IHoperand (pre ++ [tk (TFun fn) q])); [rewrite <- app_assoc; exact EL|rewrite app_length; lia| |apply ow_function].
          intros p0 r X. injection X as X _. destruct (N X).
        - intros [r rest] E H'. destruct (Hn _ H') as (X & ->). cbn [fst] in X. subst r. apply Fun. eapply operand_none; eauto. }
      destruct t; try (eapply Op; [discriminate|exact H|]; intros [[n|] rest] H'; [discriminate|apply err_inj in H'; auto]).
      eapply bind_told; [exact H| |]; [|intros [[ops cp] rest] _; discriminate].
      intros e'. apply (IHargs pre fn q [] input p [] None); auto.
    - intros pre fn p used input op ops comma EL Hb Hc e H. cbn [read_args] in H. eapply bind_told; [exact H| |].
      + assert (Bu : expression_begins (pre ++ tk (TFun fn) p :: tk TOpen op :: used)).
        { destruct comma as [cp|].
          - destruct Hc as (u & -> & _). change (expression_begins (pre ++ (tk (TFun fn) p :: tk TOpen op :: u) ++ [tk TComma cp])). rewrite app_assoc. apply eb_comma.
          - subst used. change (expression_begins (pre ++ [tk (TFun fn) p] ++ [tk TOpen op])). rewrite app_assoc. apply eb_open. }
        apply (IHexpr (pre ++ tk (TFun fn) p :: tk TOpen op :: used)); [|rewrite app_length; lia|exact Bu].
        rewrite <- app_assoc. exact EL.
      + intros [[root en] rest] E H'. apply SE in E as (ts & mid & -> & He & Hr).
        assert (Bused : balanced used).
        { destruct comma as [cp|]; [destruct Hc as (u & -> & B); apply balanced_app; [exact B|apply balanced_one; discriminate]|subst used; constructor]. }
        assert (Open : en = EInput -> balanced ts -> told L (mkPositioned MismatchedOpenParen op)).
        { intros -> B. destruct He as [-> ->]. apply (sc_open L (pre ++ [tk (TFun fn) p]) op (used ++ ts)); [|apply balanced_app; assumption].
          rewrite app_nil_r in EL. rewrite <- app_assoc. exact EL. }
        destruct root as [n|].
        * pose proof (derives_balanced _ _ _ Hr) as Bts. destruct en as [cp|cp|]; [|discriminate|apply err_inj in H'; subst e; auto].
          simpl in He. subst mid. apply (IHargs pre fn p (used ++ ts ++ [tk TComma cp]) rest op (ops ++ [n]) (Some cp)); [|exact Hb| |exact H'].
          -- rewrite EL. rewrite <- !app_assoc. reflexivity.
          -- exists (used ++ ts). rewrite <- app_assoc. split; [reflexivity|apply balanced_app; assumption].
        * subst ts. cbn [app] in EL. destruct comma as [cp|].
          -- apply err_inj in H'. subst e. destruct Hc as (u & -> & B). unfold told. cbn [pd_value pd_pos show_syntax_error].
             apply (sc_comma_after L (pre ++ tk (TFun fn) p :: tk TOpen op :: u) cp mid).
             ++ rewrite EL. rewrite <- !app_assoc. reflexivity.
             ++ exists pre, fn, p, op, u. auto.
             ++ eapply end_tok_follows; eauto.
          -- subst used. cbn [app] in EL. destruct en as [cp|cp|]; [|discriminate|apply err_inj in H'; subst e; apply Open; [reflexivity|constructor]].
             apply err_inj in H'. subst e. simpl in He. subst mid. eapply sc_comma_before. exact EL.
  Qed.
End Line.

Lemma parse_told ts e : in_order ts -> syntax_tree_new ts = Err e -> told ts e.
Proof.
  intros Ho H. unfold syntax_tree_new in H.
  assert (Main : forall pre body, ts = pre ++ body -> expression_begins pre -> balanced pre -> 
    (forall a p post, ts = a ++ tk TAssign p :: post -> List.length pre <= List.length a -> forall x q, a <> [tk (TVariable x) q]) ->
    forall A (g : option node * expr_end * list ptoken -> pres A),
    bind (read_expression (parse_fuel body) body) g = Err e ->
    (forall root en rest, g (root, en, rest) = Err e -> match en, root with
      | EComma p, _ => e = mkPositioned (UnexpectedToken TComma) p
      | EClose p, _ => e = mkPositioned MismatchedCloseParen p
      | EInput, None => e = new_raw NoInput 0 0
      | EInput, Some _ => False end) -> told ts e).
  { intros pre body EL B Bal Ha A g Hg Hres. eapply bind_told; [exact Hg| |].
    - apply (readers_told ts Ho (List.length pre) Ha (parse_fuel body)) with (pre := pre); auto.
    - intros [[root en] rest] E H'. specialize (Hres _ _ _ H').
      destruct (readers_sound (parse_fuel body)) as (SE & _). apply SE in E as (us & mid & -> & He & Hr).
      assert (Bts : balanced us) by (destruct root; [eapply derives_balanced; eauto|subst us; constructor]).
      destruct en as [cp|cp|].
      + simpl in He. subst e mid. unfold told. cbn [pd_value pd_pos show_syntax_error]. rewrite plain_text by discriminate.
        apply (sc_comma ts (pre ++ us) cp rest); [rewrite <- app_assoc; exact EL|left; apply balanced_app; assumption].
      + simpl in He. subst e mid. apply (sc_close ts (pre ++ us) cp rest); [rewrite <- app_assoc; exact EL|apply balanced_app; assumption].
      + destruct root; [destruct Hres|]. destruct He as [-> ->]. subst us e. cbn [app] in EL. rewrite app_nil_r in EL. subst ts.
        apply sc_nothing; assumption. }
  destruct (split_assignment_cases ts) as [(x & p & q & b & E & Es)|(Es & N)].
  - rewrite Es in H. eapply (Main [tk (TVariable x) p; tk TAssign q] b E); [apply eb_assignment| | |exact H|].
    + apply (balanced_app [_] [_]); apply balanced_one; discriminate.
    + intros a r post _ Hl y s ->. simpl in Hl. lia.
    + intros root en rest H'. destruct en, root; try discriminate; apply err_inj in H'; auto.
  - rewrite Es in H. eapply (Main [] ts eq_refl); [apply eb_line|constructor| |exact H|].
    + intros a r post E _ y s ->. cbn [app] in E. subst ts. eapply N; reflexivity.
    + intros root en rest H'. destruct en, root; try discriminate; apply err_inj in H'; auto.
Qed.
