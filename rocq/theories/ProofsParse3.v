(** ProofsParse3.v -- positions of trees and syntax errors (C12), parentheses (C13). *)
From Verif Require Import Base Position Num TokenTypes Errors Token Operations SavedData Variables SyntaxTree.
From Verif Require Import SpecLex SpecGrammar ProofsPosition ProofsLex2 ProofsParse ProofsParse2.
From Coq Require Import String.
Local Open Scope list_scope.

(** * Spans *)

Lemma in_order_app a b : in_order (a ++ b) ->
  in_order a /\ in_order b /\ forall x y, In x a -> In y b -> p_end (pd_pos x) <= p_start (pd_pos y).
Proof.
  intros H. repeat split.
  - intros i j ti tj Hij Ei Ej. apply (H i j); [assumption| |].
    + rewrite nth_error_app1; [assumption|]. apply nth_error_Some. congruence.
    + rewrite nth_error_app1; [assumption|]. apply nth_error_Some. congruence.
  - intros i j ti tj Hij Ei Ej. apply (H (List.length a + i) (List.length a + j)); [lia| |].
    + rewrite nth_error_app2 by lia. replace (_ + i - _) with i by lia. assumption.
    + rewrite nth_error_app2 by lia. replace (_ + j - _) with j by lia. assumption.
  - intros x y Hx Hy. apply In_nth_error in Hx as [i Ei]. apply In_nth_error in Hy as [j Ej].
    pose proof (proj1 (nth_error_Some a i)) as L. rewrite Ei in L. specialize (L ltac:(discriminate)).
    apply (H i (List.length a + j)); [lia| |].
    + rewrite nth_error_app1; assumption.
    + rewrite nth_error_app2 by lia. replace (_ + j - _) with j by lia. assumption.
Qed.

Lemma token_span_ends ts p : in_order ts -> token_span ts p ->
  (exists f, In f ts /\ p_start p = p_start (pd_pos f)) /\
  (exists l, In l ts /\ p_end p = p_end (pd_pos l)) /\
  (forall t, In t ts -> p_start p <= p_start (pd_pos t) /\ p_end (pd_pos t) <= p_end p).
Proof.
  intros Ho (f & l & pre & post & E1 & E2 & Hs & He). repeat split.
  - exists f. rewrite E1. split; [left; reflexivity|assumption].
  - exists l. rewrite E2. split; [apply in_or_app; right; left; reflexivity|assumption].
  - rewrite E1 in H. destruct H as [<-|H]; [lia|].
    rewrite E1 in Ho. apply (in_order_app [f] post) in Ho as (_ & _ & Ho).
    specialize (Ho f t ltac:(left; reflexivity) H). unfold p_end in Ho. lia.
  - rewrite E2 in H. apply in_app_or in H as [H|[<-|[]]]; [|unfold p_end; lia].
    rewrite E2 in Ho. apply in_order_app in Ho as (_ & _ & Ho).
    specialize (Ho t l H ltac:(left; reflexivity)). unfold p_end in *. lia.
Qed.

Lemma token_span_one t : token_span [t] (pd_pos t).
Proof. exists t, t, [], []. repeat split. Qed.

Lemma token_span_app a b p q : in_order (a ++ b) -> token_span a p -> token_span b q ->
  token_span (a ++ b) (from_span p q).
Proof.
  intros Ho Ha Hb. apply in_order_app in Ho as (Oa & Ob & Oab).
  pose proof (token_span_ends _ _ Oa Ha) as ((fa & Ifa & Sfa) & (la & Ila & Ela) & Ra).
  pose proof (token_span_ends _ _ Ob Hb) as ((fb & Ifb & Sfb) & (lb & Ilb & Elb) & Rb).
  destruct (from_span_ends p q) as [S1 E1].
  destruct Ha as (f & l & pre & post & Hf & Hl & Hs & He).
  destruct Hb as (f' & l' & pre' & post' & Hf' & Hl' & Hs' & He').
  pose proof (Oab la fb Ila Ifb). pose proof (Ra fa Ifa). pose proof (Rb lb Ilb). pose proof (Ra la Ila). pose proof (Rb fb Ifb).
  exists f, l', (a ++ pre'), (post ++ b). repeat split.
  - rewrite Hf. reflexivity.
  - rewrite Hl' at 1. rewrite app_assoc. reflexivity.
  - rewrite S1. rewrite <- Hs. unfold p_end in *. lia.
  - unfold p_end in *. rewrite E1. rewrite <- He'. lia.
Qed.

Lemma from_span_assoc a b c : from_span a (from_span b c) = from_span (from_span a b) c.
Proof. unfold from_span. destruct a, b, c; simpl. f_equal; lia. Qed.
Lemma from_span_comm a b : from_span a b = from_span b a.
Proof. unfold from_span. f_equal; lia. Qed.

Lemma bracket_span (t u : ptoken) ts : in_order (t :: ts ++ [u]) ->
  token_span (t :: ts ++ [u]) (from_span (pd_pos t) (pd_pos u)).
Proof.
  intros Ho. exists t, u, (t :: ts), (ts ++ [u]). destruct (from_span_ends (pd_pos t) (pd_pos u)) as [S1 E1].
  apply (in_order_app (t :: ts) [u]) in Ho as (_ & _ & Ho).
  specialize (Ho t u ltac:(left; reflexivity) ltac:(left; reflexivity)). unfold p_end in *. repeat split; lia.
Qed.

Lemma derives_span :
  (forall k ts n, derives k ts n -> in_order ts -> token_span ts (node_position n)) /\
  (forall ts ns, derives_args ts ns -> True) /\
  (forall ts ns, derives_list ts ns -> True).
Proof.
  apply derives_mutind; auto.
  - intros v p _. apply (token_span_one (tk (TNumber v) p)).
  - intros x p _. apply (token_span_one (tk (TVariable x) p)).
  - intros o p ts n _ IH Ho. cbn [node_position].
    apply (token_span_app [tk (TUn o) p] ts); [exact Ho|apply (token_span_one (tk (TUn o) p))|].
    apply IH. apply in_order_tail in Ho. exact Ho.
  - intros p q ts n _ _ Ho. apply (bracket_span (tk TOpen p) (tk TClose q) ts Ho).
  - intros f p ts n _ IH _ Ho. cbn [node_position].
    apply (token_span_app [tk (TFun f) p] ts); [exact Ho|apply (token_span_one (tk (TFun f) p))|].
    apply IH. apply in_order_tail in Ho. exact Ho.
  - intros f p o c ts ns _ _ Ho. cbn [node_position].
    apply (token_span_app [tk (TFun f) p] (tk TOpen o :: ts ++ [tk TClose c])); [exact Ho|apply (token_span_one (tk (TFun f) p))|].
    apply (bracket_span (tk TOpen o) (tk TClose c) ts). apply in_order_tail in Ho. exact Ho.
  - intros p ts n _ IH Ho. cbn [node_position].
    apply (token_span_app [tk (TBin Subtract) p] ts); [exact Ho|apply (token_span_one (tk (TBin Subtract) p))|].
    apply IH. apply in_order_tail in Ho. exact Ho.
  - intros k o p ts1 ts2 a b _ _ IH1 _ IH2 Ho. cbn [node_position].
    rewrite from_span_assoc, (from_span_comm p), <- from_span_assoc.
    pose proof (in_order_app _ _ Ho) as (O1 & O2 & _).
    apply token_span_app; [exact Ho|apply IH1; exact O1|].
    apply (token_span_app [tk (TBin o) p] ts2); [exact O2|apply (token_span_one (tk (TBin o) p))|].
    apply IH2. apply in_order_tail in O2. exact O2.
Qed.

(** Every subtree comes from a contiguous run of the tokens. *)
Lemma derives_subnode :
  (forall k ts n, derives k ts n -> k <= 5 -> forall m, subnode m n ->
     exists pre mid post, ts = pre ++ mid ++ post /\ derives 5 mid m) /\
  (forall ts ns, derives_args ts ns -> forall n m, In n ns -> subnode m n ->
     exists pre mid post, ts = pre ++ mid ++ post /\ derives 5 mid m) /\
  (forall ts ns, derives_list ts ns -> forall n m, In n ns -> subnode m n ->
     exists pre mid post, ts = pre ++ mid ++ post /\ derives 5 mid m).
Proof.
  assert (W : forall k ts n, derives k ts n -> k <= 5 -> derives 5 ts n).
  { intros k ts n H Hk. replace 5 with ((5 - k) + k) by lia. induction (5 - k); [exact H|apply d_weaken; assumption]. }
  assert (Here : forall k ts n, derives k ts n -> k <= 5 -> exists pre mid post, ts = pre ++ mid ++ post /\ derives 5 mid n).
  { intros k ts n H Hk. exists [], ts, []. rewrite app_nil_r. split; [reflexivity|]. eapply W; eauto. }
  assert (Ext : forall (ts us vs : list ptoken) m,
    (exists pre mid post, ts = pre ++ mid ++ post /\ derives 5 mid m) ->
    exists pre mid post, us ++ ts ++ vs = pre ++ mid ++ post /\ derives 5 mid m).
  { intros ts us vs m (pre & mid & post & -> & Hd). exists (us ++ pre), mid, (post ++ vs).
    rewrite <- !app_assoc. auto. }
  apply derives_mutind.
  - intros v p _ m H. inversion H; subst. eapply Here; [constructor|lia].
  - intros v p _ m H. inversion H; subst. eapply Here; [constructor|lia].
  - intros o p ts n Hd IH _ m H. inversion H; subst; [eapply Here; [constructor; eassumption|lia]|].
    specialize (IH ltac:(lia) m ltac:(assumption)). apply (Ext _ [tk (TUn o) p] []) in IH. rewrite app_nil_r in IH. exact IH.
  - intros p q ts n Hd IH _ m H. inversion H; subst; [eapply Here; [constructor; eassumption|lia]|].
    specialize (IH ltac:(lia) m ltac:(assumption)). apply (Ext _ [tk TOpen p] [tk TClose q]) in IH. exact IH.
  - intros f p ts n Hd IH Hno _ m H. inversion H; subst; [eapply Here; [apply d_function_bare; eassumption|lia]|].
    match goal with HI : In _ [_] |- _ => destruct HI as [<-|[]] end.
    specialize (IH ltac:(lia) m ltac:(assumption)). apply (Ext _ [tk (TFun f) p] []) in IH. rewrite app_nil_r in IH. exact IH.
  - intros f p o c ts ns Hd IH _ m H. inversion H; subst; [eapply Here; [apply d_function; eassumption|lia]|].
    specialize (IH _ m ltac:(eassumption) ltac:(assumption)).
    apply (Ext _ [tk (TFun f) p; tk TOpen o] [tk TClose c]) in IH. exact IH.
  - intros p ts n Hd IH _ m H. inversion H; subst; [eapply Here; [apply d_negate; eassumption|lia]|].
    specialize (IH ltac:(lia) m ltac:(assumption)). apply (Ext _ [tk (TBin Subtract) p] []) in IH. rewrite app_nil_r in IH. exact IH.
  - intros k o p ts1 ts2 a b Hl Hd1 IH1 Hd2 IH2 Hk m H.
    inversion H; subst; [eapply Here; [apply d_binary; eassumption|lia]| |].
    + specialize (IH1 ltac:(lia) m ltac:(assumption)). apply (Ext _ [] (tk (TBin o) p :: ts2)) in IH1. exact IH1.
    + specialize (IH2 ltac:(lia) m ltac:(assumption)). apply (Ext _ (ts1 ++ [tk (TBin o) p]) []) in IH2.
      rewrite app_nil_r, <- app_assoc in IH2. exact IH2.
  - intros k ts n Hd IH Hk m H. apply IH; [lia|exact H].
  - intros n m [].
  - intros ts ns _ IH. exact IH.
  - intros ts n Hd IH x m [<-|[]] H. apply IH; [lia|exact H].
  - intros ts p ts' n ns Hd IH Hd' IH' x m [<-|Hin] H.
    + specialize (IH ltac:(lia) m H). apply (Ext _ [] (tk TComma p :: ts')) in IH. exact IH.
    + specialize (IH' x m Hin H). apply (Ext _ (ts ++ [tk TComma p]) []) in IH'.
      rewrite app_nil_r, <- app_assoc in IH'. exact IH'.
Qed.

Lemma line_nodes ts t m : in_order ts -> syntax_tree_new ts = Ok t -> subnode m (st_root t) ->
  exists pre mid post, ts = pre ++ mid ++ post /\ derives 5 mid m /\ token_span mid (node_position m).
Proof.
  intros Ho H Hm. apply parse_iff in H.
  assert (C : exists pre ts', ts = pre ++ ts' /\ derives 5 ts' (st_root t)).
  { destruct H as [ts n Hd|x p q ts n Hd].
    - exists [], ts. auto.
    - exists [tk (TVariable x) p; tk TAssign q], ts. auto. }
  destruct C as (pre0 & ts' & -> & Hd). apply in_order_app in Ho as (_ & Ho & _).
  pose proof Hd as Hd0. eapply (proj1 derives_subnode) in Hd as (pre & mid & post & -> & Hd1); [|lia|exact Hm].
  exists (pre0 ++ pre), mid, post. rewrite <- app_assoc. split; [reflexivity|]. split; [exact Hd1|].
  apply (proj1 derives_span) with (1 := Hd1).
  apply in_order_app in Ho as (_ & Ho & _). apply in_order_app in Ho as (Ho & _). exact Ho.
Qed.

(** * Syntax errors point into the line *)

Definition below (L : nat) (p : position) : Prop := p_end p <= L.
Definition toks_below (L : nat) (ts : list ptoken) : Prop := Forall (fun t => below L (pd_pos t)) ts.

Lemma from_span_below L a b : below L a -> below L b -> below L (from_span a b).
Proof. unfold below. destruct (from_span_ends a b) as [_ ->]. lia. Qed.

Lemma nth_insert : forall x l k, Forall (fun y => y <= k) l -> x <= k -> Forall (fun y => y <= k) (insert_nat x l).
Proof.
  intros x l k H Hx. induction H as [|y l Hy H IH]; cbn [insert_nat]; [auto|].
  destruct (Nat.leb x y); auto.
Qed.
Lemma insert_length x l : List.length (insert_nat x l) = S (List.length l).
Proof. induction l as [|y l IH]; [reflexivity|]. cbn [insert_nat]. destruct (Nat.leb x y); simpl; congruence. Qed.
Lemma from_between_below L a b : below L a -> below L b -> below L (from_between a b).
Proof.
  unfold below, p_end. intros Ha Hb.
  assert (F : Forall (fun y => y <= L) (sort_nat [p_start a; p_start a + p_width a; p_start b; p_start b + p_width b])).
  { unfold sort_nat. cbn [fold_right]. repeat apply nth_insert; try lia. constructor. }
  unfold from_between. remember (sort_nat _) as l. cbn [p_start p_width].
  rewrite Forall_forall in F.
  assert (N : forall i, nth i l 0 <= L).
  { intros i. destruct (nth_in_or_default i l 0) as [Hi|Hi]; [apply F; exact Hi|rewrite Hi; lia]. }
  pose proof (N 1). pose proof (N 2). lia.
Qed.

Lemma derives_below L :
  (forall k ts n, derives k ts n -> toks_below L ts -> below L (node_position n)) /\
  (forall ts ns, derives_args ts ns -> True) /\ (forall ts ns, derives_list ts ns -> True).
Proof.
  unfold toks_below.
  apply derives_mutind; auto; cbn [node_position]; intros;
    repeat match goal with
    | H : Forall _ (_ :: _) |- _ => apply Forall_cons_iff in H as [? H]
    | H : Forall _ (_ ++ _) |- _ => apply Forall_app in H as [? H]
    end; cbn [pd_pos] in *; auto using from_span_below.
Qed.

Lemma finish_err_below L its ts e : seg 0 its ts -> toks_below L ts ->
  finish_expression its = Err e -> below L (pd_pos e).
Proof.
  intros Hs Hb H. apply passes_sound in Hs. unfold finish_expression in H.
  assert (D : forall k t n, derives k t n -> toks_below L t -> below L (node_position n)).
  { intros k t n Hd. apply (proj1 (derives_below L) k t n Hd). }
  unfold toks_below in *.
  destruct (apply_passes its) as [|[a|q] [|[b|q2] [|[c|q3] rr]]]; try discriminate; injection H as <-; cbn [pd_pos pmap];
  repeat match goal with
    | H : seg _ (IOperand _ :: _) _ |- _ => inversion H; clear H; subst
    | H : seg _ (IOperator _ :: _) _ |- _ => inversion H; clear H; subst
    end;
    repeat match goal with
    | H : Forall _ (_ :: _) |- _ => apply Forall_cons_iff in H as [? H]
    | H : Forall _ (_ ++ _) |- _ => apply Forall_app in H as [? H]
    end; cbn [pd_pos] in *; auto; apply from_between_below; eauto.
Qed.

Lemma bind_err {T A B} L (x : outcome (positioned T) A) (g : A -> outcome (positioned T) B) e :
  bind x g = Err e -> (forall e', x = Err e' -> below L (pd_pos e')) ->
  (forall a, x = Ok a -> g a = Err e -> below L (pd_pos e)) -> below L (pd_pos e).
Proof. destruct x as [a|e0|q]; cbn [bind]; intros H H1 H2; [eauto| |discriminate]. injection H as <-. auto. Qed.

Lemma err_inj {E A} (a b : E) : @Err E A a = Err b -> a = b.
Proof. congruence. Qed.

Lemma toks_app L a b : toks_below L (a ++ b) <-> toks_below L a /\ toks_below L b.
Proof. apply Forall_app. Qed.
Lemma end_tok_below L e mid rest : end_tok e mid rest -> toks_below L mid ->
  toks_below L rest /\ match e with EComma p | EClose p => below L p | EInput => True end.
Proof.
  intros He Hb. destruct e; simpl in He; [subst mid; apply Forall_cons_iff in Hb; tauto|
    subst mid; apply Forall_cons_iff in Hb; tauto|]. destruct He as [-> ->]. split; [exact Hb|exact I].
Qed.

Lemma readers_err L f :
  (forall input, toks_below L input -> forall e, read_expression f input = Err e -> below L (pd_pos e)) /\
  (forall input acc ts, toks_below L input -> seg 0 acc ts -> toks_below L ts ->
     forall e, read_items f input acc = Err e -> below L (pd_pos e)) /\
  (forall input, toks_below L input -> forall e, read_ooo f input = Err e -> below L (pd_pos e)) /\
  (forall input, toks_below L input -> forall e, read_operand f input = Err e -> below L (pd_pos e)) /\
  (forall input o q, toks_below L input -> below L q -> forall e, read_unary f input o q = Err e -> below L (pd_pos e)) /\
  (forall input q, toks_below L input -> below L q -> forall e, read_paren f input q = Err e -> below L (pd_pos e)) /\
  (forall input fn q, toks_below L input -> below L q -> forall e, read_function f input fn q = Err e -> below L (pd_pos e)) /\
  (forall input op ops comma, toks_below L input -> below L op ->
     match comma with Some cp => below L cp | None => True end ->
     forall e, read_args f input op ops comma = Err e -> below L (pd_pos e)).
Proof.
  induction f as [|f (IHexpr & IHitems & IHooo & IHoperand & IHunary & IHparen & IHfun & IHargs)].
  { repeat split; intros; discriminate. }
  destruct (readers_sound f) as (SE & SI & SO & SP & SU & SPa & SF & SA).
  repeat match goal with |- _ /\ _ => split end.
  - intros input Hb e H. cbn [read_expression] in H. eapply bind_err; [exact H| |].
    + intros e'. apply (IHitems input [] []); [exact Hb|constructor|constructor].
    + intros [[ooos en] rest] E H'. apply SI in E as (its & ts & mid & Eo & -> & He & Hs). simpl in Eo. subst ooos.
      apply toks_app in Hb as [Hb _]. eapply bind_err; [exact H'| |discriminate].
      intros e' H2. eapply finish_err_below; eauto.
  - intros input acc ts Hb Hs Ht e H. cbn [read_items] in H. eapply bind_err; [exact H|apply IHooo; exact Hb|].
    intros [r rest] E H'. apply SO in E. destruct r as [n|q|en]; [| |discriminate].
    + destruct E as (us & -> & Hd). apply toks_app in Hb as [Hb1 Hb2].
      eapply (IHitems rest _ (ts ++ us)); [exact Hb2| |apply toks_app; auto|exact H'].
      apply seg_app; [exact Hs|]. rewrite <- (app_nil_r us). constructor; [exact Hd|constructor].
    + subst input. apply Forall_cons_iff in Hb as [Hq Hb].
      eapply (IHitems rest _ (ts ++ [_])); [exact Hb| |apply toks_app; split; [exact Ht|constructor; [exact Hq|constructor]]|exact H'].
      apply seg_app; [exact Hs|]. constructor. constructor.
  - intros input Hb e H. cbn [read_ooo] in H. destruct input as [|[t p] input]; [discriminate|].
    apply Forall_cons_iff in Hb as [Hp Hb]. cbn [pd_value pd_pos] in *.
    destruct t; try discriminate.
    + apply err_inj in H. subst e. exact Hp.
    + eapply bind_err; [exact H|apply IHparen; assumption|]. intros [n r] _; discriminate.
    + eapply bind_err; [exact H|apply IHunary; assumption|]. intros [n r] _; discriminate.
    + eapply bind_err; [exact H|apply IHfun; assumption|]. intros [n r] _; discriminate.
  - intros input Hb e H. cbn [read_operand] in H. eapply bind_err; [exact H|apply IHooo; exact Hb|].
    intros [r rest] E H'. apply SO in E. destruct r as [n|q|en]; [discriminate| |discriminate].
    subst input. apply Forall_cons_iff in Hb as [Hq Hb]. cbn [pd_pos] in Hq.
    destruct (binop_eqb _ _).
    + eapply bind_err; [exact H'|apply IHunary; assumption|]. intros [n r] _; discriminate.
    + apply err_inj in H'. subst e. exact Hq.
  - intros input o q Hb Hq e H. cbn [read_unary] in H. eapply bind_err; [exact H|apply IHoperand; exact Hb|].
    intros [[n|] rest] _ H'; [discriminate|]. apply err_inj in H'. subst e. exact Hq.
  - intros input q Hb Hq e H. cbn [read_paren] in H. eapply bind_err; [exact H|apply IHexpr; exact Hb|].
    intros [[root en] rest] E H'. apply SE in E as (ts & mid & -> & He & _). apply toks_app in Hb as [_ Hm].
    apply (end_tok_below L) in He as [_ He]; [|exact Hm].
    destruct en, root; try discriminate; apply err_inj in H'; subst e; cbn [pd_pos]; auto using from_span_below.
  - intros input fn q Hb Hq e H. cbn [read_function] in H.
    destruct input as [|[t p] input]; [apply err_inj in H; subst e; exact Hq|]. cbn [pd_value pd_pos] in H.
    pose proof Hb as Hb0. apply Forall_cons_iff in Hb0 as [Hp Hb']. cbn [pd_pos] in Hp.
    destruct t; try (eapply bind_err; [exact H|apply IHoperand; exact Hb|];
      intros [[n|] rest] _ H'; [discriminate|apply err_inj in H'; subst e; exact Hq]).
    eapply bind_err; [exact H|apply IHargs; [exact Hb'|exact Hp|exact I]|]. intros [[ops cp] rest] _; discriminate.
  - intros input op ops comma Hb Hop Hc e H. cbn [read_args] in H. eapply bind_err; [exact H|apply IHexpr; exact Hb|].
    intros [[root en] rest] E H'. apply SE in E as (ts & mid & -> & He & _). apply toks_app in Hb as [_ Hm].
    apply (end_tok_below L) in He as [Hrest He]; [|exact Hm].
    destruct root as [n|].
    + destruct en as [cp|cp|]; [|discriminate|apply err_inj in H'; subst e; exact Hop].
      apply (IHargs rest op (ops ++ [n]) (Some cp)); [exact Hrest|exact Hop|exact He|exact H'].
    + destruct comma as [cp|]; [apply err_inj in H'; subst e; exact Hc|].
      destruct en as [cp|cp|]; [apply err_inj in H'; subst e; exact He|discriminate|apply err_inj in H'; subst e; exact Hop].
Qed.

Lemma parse_err_below L ts e : toks_below L ts -> syntax_tree_new ts = Err e -> below L (pd_pos e).
Proof.
  intros Hb H. unfold syntax_tree_new in H.
  destruct (split_assignment ts) as [var body] eqn:S.
  assert (Hbody : toks_below L body).
  { destruct (split_assignment_cases ts) as [(x & p & q & b & -> & E)|(E & _)].
    - rewrite E in S. injection S as _ <-. apply Forall_cons_iff in Hb as [_ Hb]. apply Forall_cons_iff in Hb as [_ Hb]. exact Hb.
    - rewrite E in S. injection S as _ <-. exact Hb. }
  eapply bind_err; [exact H| |].
  - apply (readers_err L (parse_fuel body)). exact Hbody.
  - intros [[root en] rest] E H'.
    destruct (readers_sound (parse_fuel body)) as (SE & _). apply SE in E as (us & mid & -> & He & _).
    apply toks_app in Hbody as [_ Hm]. apply (end_tok_below L) in He as [_ He]; [|exact Hm].
    destruct en, root; try discriminate; apply err_inj in H'; subst e; try exact He. unfold below, p_end. simpl. lia.
Qed.

(** * Parentheses *)

Lemma wrapped_derives :
  (forall k ts n ts' n', wrapped k ts n ts' n' -> derives k ts n /\ derives k ts' n') /\
  (forall ts ns ts' ns', wrapped_args ts ns ts' ns' -> derives_args ts ns /\ derives_args ts' ns') /\
  (forall ts ns ts' ns', wrapped_list ts ns ts' ns' -> derives_list ts ns /\ derives_list ts' ns').
Proof.
  assert (W : forall k ts n, derives k ts n -> k <= 5 -> derives 5 ts n).
  { intros k ts n H Hk. replace 5 with ((5 - k) + k) by lia. induction (5 - k); [exact H|apply d_weaken; assumption]. }
  assert (Z : forall k ts n, derives 0 ts n -> derives k ts n).
  { intros k ts n H. induction k; [exact H|apply d_weaken; assumption]. }
  apply wrapped_mutind; intros; repeat match goal with H : _ /\ _ |- _ => destruct H end;
    try (split; constructor; assumption); try (split; econstructor; eassumption).
  - split; [apply d_function_bare; assumption|]. apply d_function. apply da_some. apply dl_one.
    eapply W; [eassumption|lia].
  - split; [assumption|]. apply Z. constructor. eapply W; eauto.
Qed.

(** the list evaluator inside [exec] *)
Definition exec_list (pr : profile) (a : args) :=
  fix exec_list (l : list node) (s0 : env) : env * outcome failure (list Q) :=
  match l with
  | [] => (s0, Ok [])
  | m :: l' =>
      then_do (exec pr a m s0) (fun v s1 =>
      then_do (exec_list l' s1) (fun vs s2 => (s2, Ok (v :: vs))))
  end.
Lemma exec_list_cons pr a m l s : exec_list pr a (m :: l) s =
  then_do (exec pr a m s) (fun v s1 => then_do (exec_list pr a l s1) (fun vs s2 => (s2, Ok (v :: vs)))).
Proof. reflexivity. Qed.
Lemma exec_fun pr a f p ns q s :
  exec pr a (NFun f p ns q) s = then_do (exec_list pr a ns s) (fun vs s1 => (s1, exec_function f p vs)).
Proof. reflexivity. Qed.

Definition same_gen {A} (x y : env * outcome failure A) : Prop :=
  fst x = fst y /\
  match snd x, snd y with
  | Ok v, Ok v' => v = v'
  | Err e, Err e' => same_failure e e'
  | Panic p, Panic p' => p = p'
  | _, _ => False
  end.
Lemma same_gen_do {A B} (x y : env * outcome failure A) (f g : A -> env -> env * outcome failure B) :
  same_gen x y -> (forall v s, same_gen (f v s) (g v s)) -> same_gen (then_do x f) (then_do y g).
Proof.
  destruct x as [s [v|e|p]], y as [s' [v'|e'|p']]; intros [E H] Hf; simpl in *; try contradiction; subst; auto; split; simpl; auto.
Qed.
Definition same_res {A} (x y : outcome failure A) : Prop :=
  match x, y with
  | Ok v, Ok v' => v = v'
  | Err e, Err e' => same_failure e e'
  | Panic p, Panic p' => p = p'
  | _, _ => False
  end.
Lemma same_failure_refl e : same_failure e e.
Proof. destruct e; simpl; [tauto|reflexivity]. Qed.
Lemma same_res_refl {A} (x : outcome failure A) : same_res x x.
Proof. destruct x; simpl; auto using same_failure_refl. Qed.
Lemma same_math m p p' : same_failure (fail_math m p) (fail_math m p').
Proof. split; [reflexivity|]. simpl. split; discriminate. Qed.
Lemma power_pos pr a p p' x y : same_res (exec_power pr a p x y) (exec_power pr a p' x y).
Proof.
  unfold exec_power. destruct (u8_add pr _ _) as [t|e|q]; cbn [bind]; [|apply same_failure_refl|reflexivity].
  destruct (exponentiate _ _ _ _ _); cbn [map_err same_res]; auto using same_math.
Qed.
Lemma unary_pos pr a o p p' x : same_res (exec_unary pr a o p x) (exec_unary pr a o p' x).
Proof. destruct o; try apply power_pos; apply same_res_refl. Qed.
Lemma binary_pos pr a o p p' x y : same_res (exec_binary pr a o p x y) (exec_binary pr a o p' x y).
Proof.
  destruct o; try apply same_res_refl; [|apply power_pos].
  cbn [exec_binary]. destruct (Z.eqb _ _); [apply same_math|apply same_res_refl].
Qed.
Lemma function_pos f p p' xs : same_res (exec_function f p xs) (exec_function f p' xs).
Proof. destruct xs; cbn [exec_function same_res]; [apply same_math|reflexivity]. Qed.
Lemma variable_pos x p p' s : same_gen (exec_variable x p s) (exec_variable x p' s).
Proof.
  unfold exec_variable. destruct (e_vars s) as [vars|]; [|split; [reflexivity|split; [reflexivity|simpl; split; discriminate]]].
  destruct (vs_lookup vars x (e_db s)) as [[vars' db'] r]. split; [reflexivity|]. cbn [snd].
  destruct r as [[v|]|e|q]; auto using same_math, same_failure_refl.
Qed.
Lemma then_do_ret {A} (x : env * outcome failure A) : then_do x (fun v s => (s, Ok v)) = x.
Proof. destruct x as [s [v|e|p]]; reflexivity. Qed.

Lemma wrapped_exec pr a :
  (forall k ts n ts' n', wrapped k ts n ts' n' -> forall s, same_gen (exec pr a n s) (exec pr a n' s)) /\
  (forall ts ns ts' ns', wrapped_args ts ns ts' ns' -> forall s, same_gen (exec_list pr a ns s) (exec_list pr a ns' s)) /\
  (forall ts ns ts' ns', wrapped_list ts ns ts' ns' -> forall s, same_gen (exec_list pr a ns s) (exec_list pr a ns' s)).
Proof.
  assert (One : forall n n' s, (forall s, same_gen (exec pr a n s) (exec pr a n' s)) ->
    same_gen (exec_list pr a [n] s) (exec_list pr a [n'] s)).
  { intros n n' s H. rewrite !exec_list_cons. apply same_gen_do; [apply H|]. intros v s1. split; reflexivity. }
  apply wrapped_mutind.
  - intros v p p' s. split; reflexivity.
  - intros x p p' s. apply variable_pos.
  - intros o p p' ts n ts' n' _ IH s. cbn [exec]. apply same_gen_do; [apply IH|]. intros v s1. split; [reflexivity|apply unary_pos].
  - intros p q p' q' ts n ts' n' _ IH s. apply IH.
  - intros f p p' ts n ts' n' _ IH _ _ s. rewrite !exec_fun. apply same_gen_do; [apply One, IH|].
    intros v s1. split; [reflexivity|apply function_pos].
  - intros f p p' o c ts n ts' n' _ IH _ s. rewrite !exec_fun. apply same_gen_do; [apply One, IH|].
    intros v s1. split; [reflexivity|apply function_pos].
  - intros f p p' o c o' c' ts ns ts' ns' _ IH s. rewrite !exec_fun. apply same_gen_do; [apply IH|].
    intros v s1. split; [reflexivity|apply function_pos].
  - intros p p' ts n ts' n' _ IH s. cbn [exec]. apply same_gen_do; [apply IH|]. intros v s1. split; reflexivity.
  - intros k o p p' ts1 ts2 x y ts1' ts2' x' y' _ _ IH1 _ IH2 s. cbn [exec].
    apply same_gen_do; [apply IH1|]. intros v s1. apply same_gen_do; [apply IH2|].
    intros w s2. split; [reflexivity|apply binary_pos].
  - intros k ts n ts' n' _ IH s. apply IH.
  - intros k p q ts n ts' n' _ IH _ s. apply IH.
  - intros s. split; reflexivity.
  - intros ts ns ts' ns' _ IH. exact IH.
  - intros ts n ts' n' _ IH s. apply One, IH.
  - intros p p' ts n ts' n' us ns us' ns' _ IH _ IH' s. rewrite !exec_list_cons.
    apply same_gen_do; [apply IH|]. intros v s1. apply same_gen_do; [apply IH'|]. intros vs s2. split; reflexivity.
Qed.

Lemma wrapped_line_ok ts t ts' t' : wrapped_line ts t ts' t' ->
  syntax_tree_new ts = Ok t /\ syntax_tree_new ts' = Ok t' /\
  forall pr a id s, same_outcome (tree_execute pr a t id s) (tree_execute pr a t' id s).
Proof.
  intros H. rewrite !parse_iff. destruct H as [ts n ts' n' H|x p q p' q' ts n ts' n' H].
  - pose proof (proj1 wrapped_derives _ _ _ _ _ H) as [D D'].
    split; [constructor; exact D|]. split; [constructor; exact D'|]. intros pr a id s.
    apply (same_gen_do (A := Q)); [exact (proj1 (wrapped_exec pr a) _ _ _ _ _ H s)|]. intros v s1. split; reflexivity.
  - pose proof (proj1 wrapped_derives _ _ _ _ _ H) as [D D'].
    split; [constructor; exact D|]. split; [constructor; exact D'|]. intros pr a id s.
    apply (same_gen_do (A := Q)); [exact (proj1 (wrapped_exec pr a) _ _ _ _ _ H s)|]. intros v s1.
    cbn [st_var pd_value pd_pos]. destruct (e_vars s1) as [vars|].
    + destruct (vs_update _ _ _ _ _) as [[vars' db'] r]. split; [reflexivity|]. simpl. destruct r; auto using same_failure_refl.
    + split; [reflexivity|]. split; [reflexivity|]. simpl. split; discriminate.
Qed.

Lemma wrapped_refl :
  (forall k ts n, derives k ts n -> wrapped k ts n ts n) /\
  (forall ts ns, derives_args ts ns -> wrapped_args ts ns ts ns) /\
  (forall ts ns, derives_list ts ns -> wrapped_list ts ns ts ns).
Proof. apply derives_mutind; intros; try (constructor; assumption); econstructor; eassumption. Qed.
