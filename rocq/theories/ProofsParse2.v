(** ProofsParse2.v -- the readers of src/syntax_tree.rs: soundness, completeness, totality. *)
From Verif Require Import Base Position TokenTypes Errors SyntaxTree SpecGrammar ProofsParse.
From Coq Require Import String.
Local Open Scope list_scope.

Definition end_tok (e : expr_end) (mid rest : list ptoken) : Prop :=
  match e with
  | EComma p => mid = tk TComma p :: rest
  | EClose p => mid = tk TClose p :: rest
  | EInput => mid = [] /\ rest = []
  end.

Lemma derives_nonempty :
  (forall k ts n, derives k ts n -> ts <> []) /\
  (forall ts ns, derives_args ts ns -> True) /\
  (forall ts ns, derives_list ts ns -> ts <> []).
Proof.
  apply derives_mutind; intros; auto; try discriminate.
  - destruct ts1; discriminate.
  - destruct ts; discriminate.
Qed.
Lemma derives_pos k ts n : derives k ts n -> 1 <= List.length ts.
Proof. intros H. apply derives_nonempty in H. destruct ts; [congruence|simpl; lia]. Qed.

Lemma ok_inj {E A} (a b : A) : @Ok E A a = Ok b -> a = b.
Proof. congruence. Qed.

Ltac inv_ok H := apply ok_inj in H; repeat apply pair_equal_spec in H as [H ?]; subst.

Lemma readers_sound f :
  (forall input r e rest, read_expression f input = Ok (r, e, rest) ->
     exists ts mid, input = ts ++ mid /\ end_tok e mid rest /\
       match r with Some n => derives 5 ts n | None => ts = [] end) /\
  (forall input acc ooos e rest, read_items f input acc = Ok (ooos, e, rest) ->
     exists its ts mid, ooos = acc ++ its /\ input = ts ++ mid /\ end_tok e mid rest /\ seg 0 its ts) /\
  (forall input r rest, read_ooo f input = Ok (r, rest) ->
     match r with
     | ROperand n => exists ts, input = ts ++ rest /\ derives 0 ts n
     | ROperator q => input = tk (TBin (pd_value q)) (pd_pos q) :: rest
     | REnd e => end_tok e input rest
     end) /\
  (forall input n rest, read_operand f input = Ok (Some n, rest) ->
     exists ts, input = ts ++ rest /\ derives 1 ts n) /\
  (forall input o p n rest, read_unary f input o p = Ok (n, rest) ->
     exists ts m, input = ts ++ rest /\ derives 1 ts m /\ n = NUn o p m) /\
  (forall input p n rest, read_paren f input p = Ok (n, rest) ->
     exists ts, tk TOpen p :: input = ts ++ rest /\ derives 0 ts n) /\
  (forall input fn p n rest, read_function f input fn p = Ok (n, rest) ->
     exists ts, tk (TFun fn) p :: input = ts ++ rest /\ derives 0 ts n) /\
  (forall input op ops comma ns cp rest, read_args f input op ops comma = Ok (ns, cp, rest) ->
     exists ts ns', input = ts ++ tk TClose cp :: rest /\ ns = ops ++ ns' /\
       match comma with None => derives_args ts ns' | Some _ => derives_list ts ns' end).
Proof.
  induction f as [|f (IHexpr & IHitems & IHooo & IHoperand & IHunary & IHparen & IHfun & IHargs)].
  { repeat split; intros; discriminate. }
  repeat match goal with |- _ /\ _ => split end.
  - (* expression *)
    intros input r e rest H. cbn [read_expression] in H.
    destruct (read_items f input []) as [[[ooos e0] rest0]|?|?] eqn:E; try discriminate. cbn [bind] in H.
    destruct (finish_expression ooos) as [root|?|?] eqn:F; try discriminate. cbn [bind] in H. inv_ok H.
    apply IHitems in E as (its & ts & mid & E1 & -> & He & Hs). simpl in E1; subst ooos.
    exists ts, mid. split; [reflexivity|]. split; [exact He|].
    apply passes_sound in Hs. unfold finish_expression in F.
    destruct (apply_passes its) as [|[a|q] [|[b|q2] [|[c|q3] rr]]] eqn:P; try discriminate; injection F as <-.
    + apply passes_empty in P. subst its. inversion Hs; reflexivity.
    + apply seg_one in Hs. exact Hs.
  - (* items *)
    intros input acc ooos e rest H. cbn [read_items] in H.
    destruct (read_ooo f input) as [[r rest0]|?|?] eqn:E; try discriminate. cbn [bind] in H.
    apply IHooo in E. destruct r as [n|q|e0].
    + destruct E as (ts & -> & Hd). apply IHitems in H as (its & us & mid & -> & -> & He & Hs).
      exists (IOperand n :: its), (ts ++ us), mid. rewrite <- !app_assoc. repeat split; auto.
      constructor; assumption.
    + subst input. apply IHitems in H as (its & us & mid & -> & -> & He & Hs).
      eexists (IOperator q :: its), (_ :: us), mid. rewrite <- !app_assoc. repeat split; auto.
      constructor; assumption.
    + inv_ok H. exists [], [], input. rewrite app_nil_r. repeat split; auto. constructor.
  - (* ooo *)
    intros input r rest H. cbn [read_ooo] in H.
    destruct input as [|[t p] input]; [inv_ok H; simpl; auto|]. cbn [pd_value pd_pos] in H.
    destruct t as [x| | |v| | |o|o|fn]; try discriminate.
    + inv_ok H. exists [tk (TVariable x) p]. split; [reflexivity|constructor].
    + inv_ok H. reflexivity.
    + inv_ok H. exists [tk (TNumber v) p]. split; [reflexivity|constructor].
    + destruct (read_paren f input p) as [[n rest0]|?|?] eqn:E; try discriminate. cbn [bind] in H. inv_ok H.
      apply IHparen in E. exact E.
    + inv_ok H. reflexivity.
    + inv_ok H. reflexivity.
    + destruct (read_unary f input o p) as [[n rest0]|?|?] eqn:E; try discriminate. cbn [bind] in H. inv_ok H.
      apply IHunary in E as (ts & m & -> & Hd & ->). eexists (_ :: ts). split; [reflexivity|]. constructor; exact Hd.
    + destruct (read_function f input fn p) as [[n rest0]|?|?] eqn:E; try discriminate. cbn [bind] in H. inv_ok H.
      apply IHfun in E. exact E.
  - (* operand *)
    intros input n rest H. cbn [read_operand] in H.
    destruct (read_ooo f input) as [[r rest0]|?|?] eqn:E; try discriminate. cbn [bind] in H.
    apply IHooo in E. destruct r as [m|q|e0].
    + inv_ok H. injection H as <-. destruct E as (ts & -> & Hd). exists ts. split; [reflexivity|]. apply d_weaken; exact Hd.
    + destruct q as [o p]. cbn [pd_value pd_pos] in *. destruct o; try discriminate. cbn [binop_eqb] in H.
      destruct (read_unary f rest0 Negate p) as [[m rest1]|?|?] eqn:U; try discriminate. cbn [bind] in H. inv_ok H.
      injection H as <-. apply IHunary in U as (ts & m' & -> & Hd & ->).
      eexists (_ :: ts). split; [reflexivity|]. apply d_negate; exact Hd.
    + discriminate.
  - (* unary *)
    intros input o p n rest H. cbn [read_unary] in H.
    destruct (read_operand f input) as [[[m|] rest0]|?|?] eqn:E; try discriminate. cbn [bind] in H. inv_ok H.
    apply IHoperand in E as (ts & -> & Hd). exists ts, m. auto.
  - (* paren *)
    intros input p n rest H. cbn [read_paren] in H.
    destruct (read_expression f input) as [[[root e] rest0]|?|?] eqn:E; try discriminate. cbn [bind] in H.
    apply IHexpr in E as (ts & mid & -> & He & Hr).
    destruct e as [cp|cp|]; try discriminate. destruct root as [m|]; try discriminate. inv_ok H.
    simpl in He. subst mid. exists (tk TOpen p :: ts ++ [tk TClose cp]).
    split; [cbn [app]; rewrite <- app_assoc; reflexivity|]. constructor; exact Hr.
  - (* function *)
    intros input fn p n rest H. cbn [read_function] in H.
    destruct input as [|[t q] input]; try discriminate. cbn [pd_value pd_pos] in H.
    assert (Hbare : (forall q' ts', (tk t q :: input) <> tk TOpen q' :: ts') ->
       ' (r, rest') <- read_operand f (tk t q :: input) ;;
         match r with
         | Some n0 => Ok (NFun fn p [n0] (node_position n0), rest')
         | None => Err (mkPositioned (FunctionWithoutParensOrArgument fn) p)
         end = Ok (n, rest) ->
       exists ts, tk (TFun fn) p :: tk t q :: input = ts ++ rest /\ derives 0 ts n).
    { intros Hno H0.
      destruct (read_operand f (tk t q :: input)) as [[[m|] rest0]|?|?] eqn:E; try discriminate.
      cbn [bind] in H0. inv_ok H0. apply IHoperand in E as (ts & E & Hd). rewrite E.
      exists (tk (TFun fn) p :: ts). split; [reflexivity|]. apply d_function_bare; [exact Hd|].
      intros q' ts' ->. simpl in E. injection E as -> -> ->. eapply Hno. reflexivity. }
    destruct t; try (apply Hbare; [intros; discriminate|exact H]).
    clear Hbare. destruct (read_args f input q [] None) as [[[ops cp] rest0]|?|?] eqn:E; try discriminate.
    cbn [bind] in H. inv_ok H. apply IHargs in E as (ts & ns' & -> & -> & Hd).
    exists (tk (TFun fn) p :: tk TOpen q :: ts ++ [tk TClose cp]).
    split; [cbn [app]; rewrite <- app_assoc; reflexivity|]. apply d_function; exact Hd.
  - (* args *)
    intros input op ops comma ns cp rest H. cbn [read_args] in H.
    destruct (read_expression f input) as [[[root e] rest0]|?|?] eqn:E; try discriminate. cbn [bind] in H.
    apply IHexpr in E as (ts & mid & -> & He & Hr). destruct root as [m|].
    + destruct e as [q|q|]; try discriminate.
      * apply IHargs in H as (us & ns' & -> & -> & Hd). simpl in He. subst mid.
        exists (ts ++ tk TComma q :: us), (m :: ns'). rewrite <- !app_assoc. repeat split; auto.
        assert (derives_list (ts ++ tk TComma q :: us) (m :: ns')) by (constructor; assumption).
        destruct comma; [assumption|apply da_some; assumption].
      * inv_ok H. simpl in He. subst mid. exists ts, [m]. repeat split; auto.
        assert (derives_list ts [m]) by (constructor; assumption).
        destruct comma; [assumption|apply da_some; assumption].
    + subst ts. destruct comma; try discriminate. destruct e as [q|q|]; try discriminate. inv_ok H.
      simpl in He. subst mid. exists [], []. rewrite app_nil_r. repeat split; auto. constructor.
Qed.

(** * Totality *)

Lemma end_tok_len e mid rest : end_tok e mid rest -> List.length rest <= List.length mid.
Proof. destruct e; simpl; [intros ->|intros ->|intros [-> ->]]; simpl; lia. Qed.
Lemma end_tok_len_comma p mid rest : end_tok (EComma p) mid rest -> List.length rest < List.length mid.
Proof. simpl; intros ->; simpl; lia. Qed.

Lemma bind_no_panic {E A B} (x : outcome E A) (g : A -> outcome E B) :
  (forall p, x <> Panic p) -> (forall a, x = Ok a -> forall p, g a <> Panic p) -> forall p, bind x g <> Panic p.
Proof. intros Hx Hg p. destruct x as [a|e|q]; cbn [bind]; [apply Hg; reflexivity|discriminate|intros _; exact (Hx q eq_refl)]. Qed.

Lemma readers_total f :
  (forall input, 4 * List.length input + 3 <= f -> forall p, read_expression f input <> Panic p) /\
  (forall input acc, 4 * List.length input + 2 <= f -> forall p, read_items f input acc <> Panic p) /\
  (forall input, 4 * List.length input + 1 <= f -> forall p, read_ooo f input <> Panic p) /\
  (forall input, 4 * List.length input + 2 <= f -> forall p, read_operand f input <> Panic p) /\
  (forall input o q, 4 * List.length input + 3 <= f -> forall p, read_unary f input o q <> Panic p) /\
  (forall input q, 4 * List.length input + 4 <= f -> forall p, read_paren f input q <> Panic p) /\
  (forall input fn q, 4 * List.length input + 3 <= f -> forall p, read_function f input fn q <> Panic p) /\
  (forall input op ops comma, 4 * List.length input + 4 <= f -> forall p, read_args f input op ops comma <> Panic p).
Proof.
  induction f as [|f (IHexpr & IHitems & IHooo & IHoperand & IHunary & IHparen & IHfun & IHargs)].
  { repeat split; intros; lia. }
  destruct (readers_sound f) as (SE & SI & SO & SP & SU & SPa & SF & SA).
  repeat match goal with |- _ /\ _ => split end.
  - intros input Hf p. cbn [read_expression]. apply bind_no_panic; [intros; apply IHitems; lia|].
    intros [[ooos e] rest] _ p'. apply bind_no_panic; [intros; apply finish_no_panic|discriminate].
  - intros input acc Hf p. cbn [read_items]. apply bind_no_panic; [intros; apply IHooo; lia|].
    intros [r rest] E p'. apply SO in E. destruct r as [n|q|e].
    + destruct E as (ts & -> & Hd). apply derives_pos in Hd. rewrite app_length in Hf. apply IHitems; lia.
    + subst input. simpl in Hf. apply IHitems; lia.
    + discriminate.
  - intros input Hf p. cbn [read_ooo]. destruct input as [|[t q] input]; [discriminate|]. simpl in Hf.
    cbn [pd_value pd_pos]. destruct t; try discriminate;
      (apply bind_no_panic; [|intros [n rest] _ p'; discriminate]); intros p'.
    + apply IHparen; lia.
    + apply IHunary; lia.
    + apply IHfun; lia.
  - intros input Hf p. cbn [read_operand]. apply bind_no_panic; [intros; apply IHooo; lia|].
    intros [r rest] E p'. apply SO in E. destruct r as [n|q|e]; try discriminate.
    subst input. simpl in Hf. destruct (binop_eqb _ _); [|discriminate].
    apply bind_no_panic; [intros; apply IHunary; lia|intros [n r] _ p''; discriminate].
  - intros input o q Hf p. cbn [read_unary]. apply bind_no_panic; [intros; apply IHoperand; lia|].
    intros [[n|] rest] _ p'; discriminate.
  - intros input q Hf p. cbn [read_paren]. apply bind_no_panic; [intros; apply IHexpr; lia|].
    intros [[root e] rest] _ p'. destruct e, root; discriminate.
  - intros input fn q Hf p. cbn [read_function]. destruct input as [|[t q'] input]; [discriminate|].
    cbn [pd_value pd_pos]. simpl in Hf.
    destruct t; try (apply bind_no_panic; [intros; apply IHoperand; simpl; lia|intros [[n|] rest] _ p'; discriminate]).
    apply bind_no_panic; [intros; apply IHargs; lia|intros [[ops cp] rest] _ p'; discriminate].
  - intros input op ops comma Hf p. cbn [read_args]. apply bind_no_panic; [intros; apply IHexpr; lia|].
    intros [[root e] rest] E p'. apply SE in E as (ts & mid & -> & He & Hr). rewrite app_length in Hf.
    destruct root as [n|].
    + destruct e as [q|q|]; try discriminate. apply end_tok_len_comma in He. apply IHargs; lia.
    + destruct comma; [discriminate|]. destruct e; discriminate.
Qed.

(** * Completeness *)

Definition comp_ooo (ts : list ptoken) (n : node) : Prop :=
  forall f rest, 4 * List.length (ts ++ rest) + 1 <= f -> read_ooo f (ts ++ rest) = Ok (ROperand n, rest).
Definition comp_operand (ts : list ptoken) (n : node) : Prop :=
  forall f rest, 4 * List.length (ts ++ rest) + 2 <= f -> read_operand f (ts ++ rest) = Ok (Some n, rest).
Definition comp_items (k : nat) (ts : list ptoken) (n : node) : Prop :=
  exists its, gi k its n /\
    forall f rest acc, 4 * List.length (ts ++ rest) + 2 <= f ->
      exists f', 4 * List.length rest + 2 <= f' /\
        read_items f (ts ++ rest) acc = read_items f' rest (acc ++ its).
Definition comp_expr (ts : list ptoken) (n : node) : Prop :=
  forall f mid e rest, end_tok e mid rest -> 4 * List.length (ts ++ mid) + 3 <= f ->
    read_expression f (ts ++ mid) = Ok (Some n, e, rest).

Lemma comp_ooo_all ts n : ts <> [] -> comp_ooo ts n -> comp_operand ts n /\ comp_items 0 ts n.
Proof.
  intros Hne H. split.
  - intros f rest Hf. destruct f as [|f]; [lia|]. cbn [read_operand]. rewrite H by lia. reflexivity.
  - exists [IOperand n]. split; [constructor|]. intros f rest acc Hf. destruct f as [|f]; [lia|].
    exists f. split.
    + rewrite app_length in Hf. destruct ts; [congruence|]. simpl in Hf. lia.
    + cbn [read_items]. rewrite H by lia. reflexivity.
Qed.

Lemma comp_items_expr ts n : comp_items 5 ts n -> comp_expr ts n.
Proof.
  intros (its & Hg & H) f mid e rest He Hf. destruct f as [|f]; [lia|]. cbn [read_expression].
  destruct (H f mid [] ltac:(lia)) as (f' & Hf' & ->). cbn [app].
  assert (E : read_items f' mid its = Ok (its, e, rest)).
  { destruct f' as [|[|f']]; [lia|lia|].
    destruct e as [p|p|]; simpl in He.
    - subst mid. reflexivity.
    - subst mid. reflexivity.
    - destruct He as [-> ->]. reflexivity. }
  rewrite E. cbn [bind]. unfold finish_expression. rewrite (passes_complete its n Hg). reflexivity.
Qed.

(** rewrite a reader call in the goal by [IH], whatever the spelling of its arguments *)
Ltac rew_to r IH :=
  match goal with
  | |- context [read_expression ?f ?x] =>
      let H := fresh in assert (H : read_expression f x = r); [apply IH|rewrite H]
  end.
Ltac rew_args r IH :=
  match goal with
  | |- context [read_args ?f ?x ?a ?b ?c] =>
      let H := fresh in assert (H : read_args f x a b c = r); [apply IH|rewrite H]
  end.

Lemma readers_complete :
  (forall k ts n, derives k ts n ->
     (k = 0 -> comp_ooo ts n) /\ (k <= 1 -> comp_operand ts n) /\ comp_items k ts n) /\
  (forall ts ns, derives_args ts ns ->
     forall f rest op cp, 4 * List.length (ts ++ tk TClose cp :: rest) + 4 <= f ->
       read_args f (ts ++ tk TClose cp :: rest) op [] None = Ok (ns, cp, rest)) /\
  (forall ts ns, derives_list ts ns ->
     forall f rest op ops comma cp, 4 * List.length (ts ++ tk TClose cp :: rest) + 4 <= f ->
       read_args f (ts ++ tk TClose cp :: rest) op ops comma = Ok (ops ++ ns, cp, rest)).
Proof.
  assert (L0 : forall ts n, ts <> [] -> comp_ooo ts n ->
     (0 = 0 -> comp_ooo ts n) /\ (0 <= 1 -> comp_operand ts n) /\ comp_items 0 ts n).
  { intros ts n Hne H. destruct (comp_ooo_all ts n Hne H). auto. }
  apply derives_mutind.
  - (* number *) intros v p. apply L0; [discriminate|]. intros [|f] rest Hf; [lia|]. reflexivity.
  - (* variable *) intros v p. apply L0; [discriminate|]. intros [|f] rest Hf; [lia|]. reflexivity.
  - (* unary *) intros o p ts n Hd (_ & IH & _). apply L0; [discriminate|].
    intros [|[|f]] rest Hf; [lia|simpl in Hf; lia|].
    cbn [app read_ooo pd_value pd_pos read_unary]. rewrite (IH ltac:(lia)) by (simpl in Hf; lia). reflexivity.
  - (* paren *) intros p q ts n Hd (_ & _ & IH). apply comp_items_expr in IH. apply L0; [discriminate|].
    intros [|[|f]] rest Hf; [lia|simpl in Hf; lia|].
    cbn [app read_ooo pd_value pd_pos read_paren]. rewrite <- app_assoc.
    cbn [app]. rew_to (@Ok (positioned syntax_error) _ (Some n, EClose q, rest)) IH; [reflexivity| |reflexivity].
    simpl in Hf. rewrite <- app_assoc in Hf. cbn [app] in Hf. lia.
  - (* bare function *) intros fn p ts n Hd (_ & IH & _) Hno. apply L0; [discriminate|].
    pose proof (derives_pos _ _ _ Hd) as Hpos.
    intros [|[|f]] rest Hf; [lia|simpl in Hf; lia|].
    cbn [app read_ooo pd_value pd_pos]. cbn [read_function].
    destruct ts as [|[t q] ts]; [simpl in Hpos; lia|].
    assert (E : read_operand f ((tk t q :: ts) ++ rest) = Ok (Some n, rest)).
    { apply IH; [lia|]. simpl in Hf |- *. lia. }
    cbn [app] in E |- *. cbn [pd_value].
    destruct t; try (match goal with |- context [read_operand ?g ?x] =>
      let H := fresh in assert (H : read_operand g x = Ok (Some n, rest)) by exact E; rewrite H end; reflexivity).
    exfalso. eapply Hno. reflexivity.
  - (* function *) intros fn p o c ts ns Hd IH. apply L0; [discriminate|].
    intros [|[|f]] rest Hf; [lia|simpl in Hf; lia|].
    cbn [app read_ooo pd_value pd_pos]. cbn [read_function pd_value pd_pos]. rewrite <- app_assoc. cbn [app].
    rew_args (@Ok (positioned syntax_error) _ (ns, c, rest)) IH; [|reflexivity].
    cbn [app List.length] in Hf. rewrite <- app_assoc in Hf. cbn [app] in Hf.
    unfold ptoken in *. lia.
  - (* negate *) intros p ts n Hd (_ & IHo & (its & Hg & IHi)). split; [lia|]. split.
    + intros _ [|[|f]] rest Hf; [lia|simpl in Hf; lia|].
      cbn [app read_operand read_ooo pd_value pd_pos bind binop_eqb]. cbn [read_unary].
      rewrite IHo; [reflexivity|lia|]. simpl in Hf. lia.
    + exists (IOperator (mkPositioned Subtract p) :: its). split; [constructor; exact Hg|].
      intros [|[|f]] rest acc Hf; [lia|simpl in Hf; lia|].
      cbn [app]. destruct (IHi (S f) rest (acc ++ [IOperator (mkPositioned Subtract p)])) as (f' & Hf' & E).
      { simpl in Hf. lia. }
      exists f'. split; [exact Hf'|]. rewrite <- app_assoc in E. cbn [app] in E. rewrite <- E. reflexivity.
  - (* binary *) intros k o p ts1 ts2 a b Hl Hd1 (_ & _ & (i1 & G1 & I1)) Hd2 (_ & _ & (i2 & G2 & I2)).
    pose proof (binop_level_ge o). split; [lia|]. split; [lia|].
    exists (i1 ++ IOperator (mkPositioned o p) :: i2). split; [apply gi_bin; assumption|].
    intros f rest acc Hf. rewrite <- app_assoc in Hf |- *. cbn [app] in Hf |- *.
    destruct (I1 f (tk (TBin o) p :: ts2 ++ rest) acc Hf) as (f1 & Hf1 & E1).
    destruct f1 as [|[|f1]]; [lia|simpl in Hf1; lia|].
    destruct (I2 (S f1) rest (acc ++ i1 ++ [IOperator (mkPositioned o p)])) as (f2 & Hf2 & E2).
    { simpl in Hf1. lia. }
    exists f2. split; [exact Hf2|]. etransitivity; [exact E1|].
    replace (acc ++ i1 ++ IOperator (mkPositioned o p) :: i2)
      with ((acc ++ i1 ++ [IOperator (mkPositioned o p)]) ++ i2) by (rewrite <- !app_assoc; reflexivity).
    rewrite <- E2. cbn [read_items read_ooo pd_value pd_pos bind]. rewrite <- app_assoc. reflexivity.
  - (* weaken *) intros k ts n Hd (IH0 & IH1 & (its & Hg & IHi)). split; [lia|]. split.
    + intros Hk. apply IH1; lia.
    + exists its. split; [apply gi_up; exact Hg|exact IHi].
  - (* no args *) intros [|[|[|[|f]]]] rest op cp Hf; try (simpl in Hf; lia). reflexivity.
  - (* some args *) intros ts ns Hd IH f rest op cp Hf. apply (IH f rest op [] None cp Hf).
  - (* one *) intros ts n Hd (_ & _ & IH) f rest op ops comma cp Hf. apply comp_items_expr in IH.
    destruct f as [|f]; [lia|]. cbn [read_args].
    rew_to (@Ok (positioned syntax_error) _ (Some n, EClose cp, rest)) IH; [reflexivity|lia|reflexivity].
  - (* more *) intros ts p ts' n ns Hd (_ & _ & IH) Hd' IH' f rest op ops comma cp Hf. apply comp_items_expr in IH.
    destruct f as [|f]; [lia|]. cbn [read_args]. rewrite <- app_assoc in Hf |- *. cbn [app] in Hf |- *.
    rew_to (@Ok (positioned syntax_error) _ (Some n, EComma p, ts' ++ tk TClose cp :: rest)) IH; [reflexivity|lia|].
    cbn [bind]. rewrite IH'; [rewrite <- app_assoc; reflexivity|]. rewrite app_length in Hf. simpl in Hf. lia.
Qed.

(** * Whole lines *)

Lemma expression_iff ts n :
  read_expression (parse_fuel ts) ts = Ok (Some n, EInput, []) <-> derives 5 ts n.
Proof.
  split.
  - intros H. destruct (readers_sound (parse_fuel ts)) as (SE & _).
    apply SE in H as (ts' & mid & -> & [-> _] & Hd). rewrite app_nil_r. exact Hd.
  - intros H. apply readers_complete in H as (_ & _ & H). apply comp_items_expr in H.
    specialize (H (parse_fuel ts) [] EInput [] (conj eq_refl eq_refl)). rewrite app_nil_r in H.
    apply H. unfold parse_fuel. lia.
Qed.

Lemma derives_no_assign :
  (forall k ts n, derives k ts n -> forall p, ~ In (tk TAssign p) ts) /\
  (forall ts ns, derives_args ts ns -> forall p, ~ In (tk TAssign p) ts) /\
  (forall ts ns, derives_list ts ns -> forall p, ~ In (tk TAssign p) ts).
Proof.
  apply derives_mutind; intros; intro Hin;
    repeat match goal with
    | H : In _ (_ ++ _) |- _ => apply in_app_or in H
    | H : In _ (_ :: _) |- _ => destruct H
    | H : In _ [] |- _ => destruct H
    | H : _ \/ _ |- _ => destruct H
    | H : mkPositioned _ _ = mkPositioned _ _ |- _ => discriminate H
    | H : forall p, ~ In (tk TAssign p) ?ts, H' : In (tk TAssign ?p) ?ts |- _ => exact (H p H')
    end.
Qed.

Lemma split_assignment_cases ts :
  (exists x p q body, ts = tk (TVariable x) p :: tk TAssign q :: body /\
     split_assignment ts = (Some (mkPositioned x p), body)) \/
  (split_assignment ts = (None, ts) /\ forall x p q body, ts <> tk (TVariable x) p :: tk TAssign q :: body).
Proof.
  destruct ts as [|[t1 p1] [|[t2 p2] ts]]; try (right; split; [reflexivity|intros; discriminate]).
  destruct t1; try (right; split; [reflexivity|intros; discriminate]).
  destruct t2; try (right; split; [reflexivity|intros; discriminate]).
  left. eexists _, _, _, _. split; reflexivity.
Qed.

Lemma parse_iff ts t : syntax_tree_new ts = Ok t <-> line_tree ts t.
Proof.
  unfold syntax_tree_new.
  assert (Core : forall var body,
    (' (root, e, _) <- read_expression (parse_fuel body) body ;;
     match e, root with
     | EComma p, _ => Err (mkPositioned (UnexpectedToken TComma) p)
     | EClose p, _ => Err (mkPositioned MismatchedCloseParen p)
     | EInput, None => Err (new_raw NoInput 0 0)
     | EInput, Some n => Ok (mkTree var n)
     end) = Ok t <-> exists n, derives 5 body n /\ t = mkTree var n).
  { intros var body. split.
    - intros H. destruct (read_expression (parse_fuel body) body) as [[[root e] rest]|?|?] eqn:E; try discriminate.
      cbn [bind] in H. destruct e; try discriminate. destruct root as [n|]; try discriminate. injection H as <-.
      exists n. split; [|reflexivity]. apply expression_iff.
      assert (rest = []); [|subst; exact E].
      destruct (readers_sound (parse_fuel body)) as (SE & _). apply SE in E as (? & ? & _ & [_ ->] & _). reflexivity.
    - intros (n & Hd & ->). apply expression_iff in Hd. rewrite Hd. reflexivity. }
  destruct (split_assignment_cases ts) as [(x & p & q & body & -> & ->)|(-> & Hno)].
  - rewrite Core. split.
    + intros (n & Hd & ->). constructor; exact Hd.
    + intros H. inversion H as [? n Hd E|? ? ? ? n Hd]; subst; [|eauto].
      exfalso. eapply (proj1 derives_no_assign); [exact Hd|]. right; left; reflexivity.
  - rewrite Core. split.
    + intros (n & Hd & ->). constructor; exact Hd.
    + intros H. inversion H as [? n Hd|? ? ? ? n Hd E]; subst; [eauto|]. exfalso. eapply Hno; reflexivity.
Qed.

Lemma parse_total ts p : syntax_tree_new ts <> Panic p.
Proof.
  unfold syntax_tree_new. destruct (split_assignment ts) as [var body].
  apply bind_no_panic.
  - intros p'. destruct (readers_total (parse_fuel body)) as (T & _). apply T. unfold parse_fuel. lia.
  - intros [[root e] rest] _ p'. destruct e, root; discriminate.
Qed.

Lemma line_tree_unique ts t1 t2 : line_tree ts t1 -> line_tree ts t2 -> t1 = t2.
Proof. rewrite <- !parse_iff. congruence. Qed.
