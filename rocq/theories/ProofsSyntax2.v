(** ProofsSyntax2.v -- a line about which a complaint is true has no tree (C72): a scanner that
    accepts every derivable line, and that no line with a true complaint gets through. *)
From Verif Require Import Base Position TokenTypes Errors SyntaxTree.
From Verif Require Import SpecGrammar SpecCommands SpecSyntax ProofsParse2.
From Coq Require Import String.
Local Open Scope list_scope.

Inductive scan := Fresh | FirstVar | Expect | AfterFun | CallStart | Done.
(** The open brackets (true: of a call), and where we are. *)
Definition sstate : Type := (list bool * scan)%type.
Definition expect (t : token) (k : list bool) : option sstate :=
  match t with
  | TNumber _ | TVariable _ => Some (k, Done)
  | TUn _ | TBin Subtract => Some (k, Expect)
  | TFun _ => Some (k, AfterFun)
  | TOpen => Some (false :: k, Expect)
  | _ => None
  end.
Definition finish (t : token) (k : list bool) : option sstate :=
  match t with
  | TBin _ => Some (k, Expect)
  | TComma => match k with true :: _ => Some (k, Expect) | _ => None end
  | TClose => match k with _ :: k' => Some (k', Done) | [] => None end
  | _ => None
  end.
Definition step (s : sstate) (t : token) : option sstate :=
  let k := fst s in
  match snd s with
  | Fresh => match t with TVariable _ => Some (k, FirstVar) | _ => expect t k end
  | FirstVar => match t with TAssign => Some (k, Expect) | _ => finish t k end
  | Expect => expect t k
  | AfterFun => match t with TOpen => Some (true :: k, CallStart) | _ => expect t k end
  | CallStart => match t with TClose => finish TClose k | _ => expect t k end
  | Done => finish t k
  end.
Fixpoint run (s : sstate) (ts : list ptoken) : option sstate :=
  match ts with
  | [] => Some s
  | t :: r => match step s (pd_value t) with Some s' => run s' r | None => None end
  end.

Lemma run_app a b s : run s (a ++ b) = match run s a with Some s' => run s' b | None => None end.
Proof. revert s. induction a as [|t a IH]; intros s; [reflexivity|]. cbn [app run]. destruct (step s (pd_value t)); auto. Qed.

Definition not_open (ts : list ptoken) : Prop := forall q r, ts <> tk TOpen q :: r.
Definition ready (st : scan) (ts : list ptoken) : Prop := st = Expect \/ st = CallStart \/ (st = AfterFun /\ not_open ts).
Lemma ready_expect st t k : st = Expect \/ st = CallStart \/ (st = AfterFun /\ t <> TOpen) -> t <> TClose -> step (k, st) t = expect t k.
Proof. intros [->|[->|[-> N]]] C; cbn [step fst snd]; [reflexivity| |]; destruct t; try reflexivity; congruence. Qed.
Lemma ready_step st t p ts k : ready st (tk t p :: ts) -> t <> TClose -> step (k, st) t = expect t k.
Proof.
  intros H. apply ready_expect. destruct H as [H|[H|[H N]]]; auto. right; right. split; [exact H|]. intros ->. eapply N; reflexivity.
Qed.
Lemma ready_app st a b : a <> [] -> ready st (a ++ b) -> ready st a.
Proof.
  intros N [H|[H|[H R]]]; [left; exact H|right; left; exact H|right; right]. split; [exact H|].
  intros q r ->. eapply R. reflexivity.
Qed.

Lemma derives_run :
  (forall k ts n, derives k ts n -> forall s st, ready st ts -> run (s, st) ts = Some (s, Done)) /\
  (forall ts ns, derives_args ts ns -> forall s, run (true :: s, CallStart) ts = Some (true :: s, Done) \/ ts = []) /\
  (forall ts ns, derives_list ts ns -> forall s st, st = Expect \/ st = CallStart -> run (true :: s, st) ts = Some (true :: s, Done)).
Proof.
  apply derives_mutind.
  - intros v p s st R. cbn [run pd_value]. rewrite (ready_step _ _ _ _ _ R) by discriminate. reflexivity.
  - intros x p s st R. cbn [run pd_value]. rewrite (ready_step _ _ _ _ _ R) by discriminate. reflexivity.
  - intros o p ts n _ IH s st R. cbn [run pd_value]. rewrite (ready_step _ _ _ _ _ R) by discriminate. cbn [expect]. apply IH. left; reflexivity.
  - intros p q ts n _ IH s st R. cbn [run pd_value]. rewrite (ready_step _ _ _ _ _ R) by discriminate. cbn [expect].
    rewrite run_app, IH by (left; reflexivity). reflexivity.
  - intros f p ts n _ IH N s st R. cbn [run pd_value]. rewrite (ready_step _ _ _ _ _ R) by discriminate. cbn [expect].
    apply IH. right; right. split; [reflexivity|exact N].
  - intros f p o c ts ns _ IH s st R. cbn [run pd_value]. rewrite (ready_step _ _ _ _ _ R) by discriminate. cbn [expect step fst snd].
    rewrite run_app. destruct (IH s) as [-> | ->]; reflexivity.
  - intros p ts n _ IH s st R. cbn [run pd_value]. rewrite (ready_step _ _ _ _ _ R) by discriminate. cbn [expect]. apply IH. left; reflexivity.
  - intros k o p ts1 ts2 a b _ D1 IH1 _ IH2 s st R. rewrite run_app, IH1.
    + cbn [run pd_value step fst snd finish]. apply IH2. left; reflexivity.
    + eapply ready_app; [|exact R]. exact (proj1 derives_nonempty _ _ _ D1).
  - auto.
  - intros s. right. reflexivity.
  - intros ts ns _ IH s. left. apply IH. auto.
  - intros ts n _ IH s st R. apply IH. destruct R; [left|right; left]; assumption.
  - intros ts p ts' n ns _ IH _ IH2 s st R. rewrite run_app, IH by (destruct R; [left|right; left]; assumption).
    cbn [run pd_value step fst snd finish]. apply IH2. auto.
Qed.
Definition accepted (ts : list ptoken) : Prop := run ([], Fresh) ts = Some ([], Done) \/ run ([], Fresh) ts = Some ([], FirstVar).
(** From the state after a first variable, everything goes as after an operand. *)
Lemma first_var_done ts k s : run (k, Done) ts = Some s -> run (k, FirstVar) ts = Some s \/ ts = [].
Proof.
  destruct ts as [|[t p] ts]; [auto|]. intros H. left. cbn [run pd_value step fst snd] in *. destruct t; try exact H. discriminate H.
Qed.
Lemma line_accepted ts t : line_tree ts t -> accepted ts.
Proof.
  intros [ts0 n D|x p q ts0 n D].
  - pose proof (proj1 derives_run _ _ _ D [] Expect (or_introl eq_refl)) as R. destruct ts0 as [|[u p] ts0]; [discriminate R|].
    unfold accepted. cbn [run pd_value step fst snd] in *. destruct u; try (left; exact R).
    cbn [expect] in R. destruct (first_var_done _ _ _ R) as [E | ->]; [left; exact E|right; reflexivity].
  - left. cbn [run pd_value step fst snd]. apply (proj1 derives_run _ _ _ D [] Expect). left; reflexivity.
Qed.

(** * Complaints *)
Lemma finish_stack t k s : finish t k = Some s -> t <> TClose -> fst s = k.
Proof. destruct t; cbn [finish]; try discriminate; try congruence; [|intros [= <-]; reflexivity]. destruct k as [|[] k]; try discriminate. intros [= <-]. reflexivity. Qed.
Lemma expect_stack t k s : expect t k = Some s -> t <> TOpen -> fst s = k.
Proof. destruct t as [| | | | | |o|o|f]; cbn [expect]; try discriminate; try congruence; try (intros [= <-]; reflexivity). destruct o; try discriminate; intros [= <-]; reflexivity. Qed.
Lemma step_stack s t s' : step s t = Some s' -> t <> TOpen -> t <> TClose -> fst s' = fst s.
Proof.
  destruct s as [k st]. intros H N1 N2. destruct st; cbn [step fst snd] in H |- *; destruct t; try congruence;
    try (apply finish_stack in H; [exact H|discriminate]); try (apply expect_stack in H; [exact H|discriminate]); injection H as <-; reflexivity.
Qed.
Lemma step_open s s' : step s TOpen = Some s' -> exists b, fst s' = b :: fst s.
Proof. destruct s as [k []]; cbn; try discriminate; intros [= <-]; cbn; eauto. Qed.
Lemma step_close s s' : step s TClose = Some s' -> exists b, fst s = b :: fst s'.
Proof. destruct s as [k []]; cbn; try discriminate; destruct k; try discriminate; intros [= <-]; cbn; eauto. Qed.
Lemma balanced_run ts : balanced ts -> forall s s', run s ts = Some s' -> fst s' = fst s.
Proof.
  induction 1 as [|t p ts N1 N2 _ IH|p q ts us _ IH _ IH2]; intros s s' H.
  - injection H as <-. reflexivity.
  - cbn [run pd_value] in H. destruct (step s t) as [s1|] eqn:E; [|discriminate]. rewrite (IH _ _ H). eapply step_stack; eauto.
  - cbn [run pd_value] in H. destruct (step s TOpen) as [s1|] eqn:E; [|discriminate]. rewrite run_app in H.
    destruct (run s1 ts) as [s2|] eqn:E2; [|discriminate]. cbn [run pd_value] in H. destruct (step s2 TClose) as [s3|] eqn:E3; [|discriminate].
    rewrite (IH2 _ _ H). apply IH in E2. apply step_open in E as (b & E). apply step_close in E3 as (b' & E3). congruence.
Qed.
(** The last token tells where we are. *)
Definition after_token (t : token) (st : scan) : Prop :=
  match t with
  | TNumber _ | TClose => st = Done
  | TVariable _ => st = Done \/ st = FirstVar
  | TBin _ | TUn _ | TComma | TAssign => st = Expect
  | TFun _ => st = AfterFun
  | TOpen => st = Expect \/ st = CallStart
  end.
Lemma step_after s t s' : step s t = Some s' -> after_token t (snd s').
Proof.
  destruct s as [k st]. destruct st, t as [| | | | | |o|o|f]; cbn; try discriminate; try (intros [= <-]; cbn; auto);
    try (destruct o; try discriminate; intros [= <-]; reflexivity); destruct k as [|[] k]; try discriminate; intros [= <-]; cbn; auto.
Qed.
Lemma run_last a t p s s' : run s (a ++ [tk t p]) = Some s' -> after_token t (snd s').
Proof.
  rewrite run_app. destruct (run s a) as [s1|]; [|discriminate]. cbn [run pd_value]. destruct (step s1 t) as [s2|] eqn:E; [|discriminate].
  intros [= <-]. eapply step_after; eauto.
Qed.
Lemma accepted_split ts pre post : accepted ts -> ts = pre ++ post -> exists s, run ([], Fresh) pre = Some s /\ exists st, run s post = Some ([], st) /\ (st = Done \/ st = FirstVar).
Proof. intros A ->. unfold accepted in A. rewrite run_app in A. destruct (run _ pre) as [s|]; [|destruct A; discriminate]. exists s. split; [reflexivity|]. destruct A; eauto. Qed.

Lemma nothing_stops post k st st' : nothing_follows post -> st = Expect \/ st = AfterFun -> run (k, st) post = Some ([], st') -> st' = Done \/ st' = FirstVar -> False.
Proof.
  intros N S R D. destruct post as [|[t p] post]; cbn [run pd_value nothing_follows] in *.
  - injection R as -> ->. destruct S, D; congruence.
  - destruct N as [-> | ->]; destruct S as [-> | ->]; discriminate R.
Qed.
Lemma no_operand_stops post : no_operand post -> forall k st', run (k, Expect) post = Some ([], st') -> st' = Done \/ st' = FirstVar -> False.
Proof.
  induction 1 as [post N|o p post N|p post _ IH]; intros k st' R D.
  - exact (nothing_stops _ _ Expect _ N (or_introl eq_refl) R D).
  - cbn [run pd_value step fst snd expect] in R. destruct o; try discriminate. congruence.
  - cbn [run pd_value step fst snd expect] in R. eauto.
Qed.
Lemma begins_state pre s : expression_begins pre -> run ([], Fresh) pre = Some s -> snd s = Fresh \/ snd s = Expect \/ snd s = CallStart.
Proof.
  destruct 1.
  - intros [= <-]. auto.
  - intros [= <-]. auto.
  - intros R. apply run_last in R. cbn in R. tauto.
  - intros R. apply run_last in R. cbn in R. tauto.
Qed.
Lemma wanted_state pre s : operand_wanted pre -> run ([], Fresh) pre = Some s -> snd s = Expect \/ snd s = AfterFun.
Proof. destruct 1; intros R; apply run_last in R; cbn in R; auto. Qed.
Lemma no_call_state pre s : no_call pre -> run ([], Fresh) pre = Some s -> snd s <> AfterFun.
Proof.
  intros N R. destruct pre as [|x pre0] eqn:E0; [injection R as <-; discriminate|]. rewrite <- E0 in *.
  destruct (@exists_last _ pre) as (a & [t p] & E); [subst; discriminate|]. rewrite E in R. apply run_last in R.
  destruct t; cbn in R; try (intros X; rewrite X in R; solve [discriminate R|destruct R; discriminate]). exfalso. eapply N. exact E.
Qed.
Lemma open_false k st s : st <> AfterFun -> step (k, st) TOpen = Some s -> s = (false :: k, Expect).
Proof. intros N. destruct st; cbn; try congruence; try discriminate. Qed.
(** The assignment sign gets through only after a first variable. *)
Lemma first_var_only pre k : run ([], Fresh) pre = Some (k, FirstVar) -> exists x q, pre = [tk (TVariable x) q].
Proof.
  assert (F : forall ts s, snd s <> Fresh -> forall s', run s ts = Some s' -> ts = [] \/ (snd s' <> Fresh /\ snd s' <> FirstVar)).
  { induction ts as [|[t p] ts IH]; intros s N s' R; [left; reflexivity|right]. cbn [run pd_value] in R.
    destruct (step s t) as [s1|] eqn:E; [|discriminate].
    assert (N1 : snd s1 <> Fresh /\ snd s1 <> FirstVar).
    { destruct s as [k0 st]. pose proof (step_after _ _ _ E) as A. destruct t; cbn in A; try (rewrite A; split; discriminate);
        try (destruct A as [A|A]; rewrite A; split; discriminate).
      destruct st; cbn in *; try congruence; injection E as <-; split; discriminate. }
    destruct (IH s1 (proj1 N1) s' R) as [-> |X]; [|exact X]. injection R as <-. exact N1. }
  destruct pre as [|[t p] pre]; [discriminate|]. cbn [run pd_value step fst snd]. intros R.
  destruct t as [x| | | | | |o|o|f]; cbn [expect] in R; try discriminate R; try (destruct o; try discriminate R);
    (pose proof R as X; apply F in X; [|discriminate]; destruct X as [-> |[_ X]]; [|destruct (X eq_refl)]); try discriminate R; eauto.
Qed.

Lemma complaint_rejected ts text p : syntax_complaint ts text p -> ~ accepted ts.
Proof.
  intros C A. destruct C as [B W|pre q post E N|pre q post E W|pre o q post E N W|pre q post E B|pre q post E W|pre q q' post r E N _ _
    |pre o q post E N|pre q post E W N|pre o q post E N B|pre o q post E N|pre f q o r post E|pre q post E W N|pre f q post E N|pre t q u r post p E T U _ _].
  - destruct A as [A|A]; pose proof (begins_state _ _ B A) as S; cbn in S; destruct S as [S|[S|S]]; discriminate.
  - destruct (accepted_split _ _ _ A E) as ([k st] & R1 & st' & R2 & D). cbn [run pd_value] in R2.
    destruct st; cbn in R2; try discriminate. apply first_var_only in R1 as (x & r & R1). exact (N _ _ R1).
  - destruct (accepted_split _ _ _ A E) as ([k st] & R1 & st' & R2 & D). cbn [run pd_value] in R2.
    assert (K : match k with true :: _ => False | _ => True end).
    { destruct W as [W|(a & o & inner & -> & Nc & B)].
      - apply (balanced_run _ W) in R1. cbn in R1. subst k. exact I.
      - rewrite run_app in R1. destruct (run _ a) as [[k0 st0]|] eqn:Ra; [|discriminate]. apply (no_call_state _ _ Nc) in Ra. cbn [snd] in Ra.
        cbn [run pd_value] in R1. destruct (step (k0, st0) TOpen) as [s1|] eqn:Es; [|discriminate]. apply (open_false _ _ _ Ra) in Es. subst s1.
        apply (balanced_run _ B) in R1. cbn in R1. subst k. exact I. }
    destruct st; cbn in R2; try discriminate; destruct k as [|[] k]; try discriminate; destruct K.
  - destruct (accepted_split _ _ _ A E) as ([k st] & R1 & st' & R2 & D). apply (wanted_state _ _ W) in R1. cbn [snd run pd_value] in *.
    destruct R1 as [-> | ->]; cbn in R2; destruct o; try discriminate; congruence.
  - destruct (accepted_split _ _ _ A E) as ([k st] & R1 & st' & R2 & D). cbn [run pd_value] in R2.
    destruct (step (k, st) TOpen) as [s1|] eqn:Es; [|discriminate]. apply step_open in Es as (b & Es). apply (balanced_run _ B) in R2. rewrite Es in R2. discriminate.
  - destruct (accepted_split _ _ _ A E) as ([k st] & R1 & st' & R2 & D). apply (balanced_run _ W) in R1. cbn [run pd_value fst] in *. subst k.
    destruct (step ([], st) TClose) as [s1|] eqn:Es; [|discriminate]. apply step_close in Es as (b & Es). discriminate.
  - destruct (accepted_split _ _ _ A E) as ([k st] & R1 & st' & R2 & D). apply (no_call_state _ _ N) in R1. cbn [run pd_value snd] in *.
    destruct (step (k, st) TOpen) as [s1|] eqn:Es; [|discriminate]. apply (open_false _ _ _ R1) in Es. subst s1. discriminate.
  - change (ts = pre ++ [tk (TUn o) q] ++ post) in E. rewrite app_assoc in E. destruct (accepted_split _ _ _ A E) as ([k st] & R1 & st' & R2 & D).
    apply run_last in R1. cbn in R1. exact (nothing_stops post k st st' N ltac:(tauto) R2 D).
  - change (ts = pre ++ [tk (TBin Subtract) q] ++ post) in E. rewrite app_assoc in E. destruct (accepted_split _ _ _ A E) as ([k st] & R1 & st' & R2 & D).
    apply run_last in R1. cbn in R1. exact (nothing_stops post k st st' N ltac:(tauto) R2 D).
  - destruct (accepted_split _ _ _ A E) as ([k st] & R1 & st' & R2 & D). apply (begins_state _ _ B) in R1. cbn [snd run pd_value] in *.
    destruct R1 as [-> |[-> | ->]]; cbn in R2; destruct o; try discriminate; congruence.
  - change (ts = pre ++ [tk (TBin o) q] ++ post) in E. rewrite app_assoc in E. destruct (accepted_split _ _ _ A E) as ([k st] & R1 & st' & R2 & D).
    apply run_last in R1. cbn in R1. subst st. eapply no_operand_stops; eauto.
  - change (ts = pre ++ [tk (TFun f) q] ++ tk TOpen o :: tk TComma r :: post) in E. rewrite app_assoc in E.
    destruct (accepted_split _ _ _ A E) as ([k st] & R1 & st' & R2 & D). apply run_last in R1. cbn in R1. subst st. discriminate R2.
  - change (ts = pre ++ [tk TComma q] ++ post) in E. rewrite app_assoc in E. destruct (accepted_split _ _ _ A E) as ([k st] & R1 & st' & R2 & D).
    apply run_last in R1. cbn in R1. exact (nothing_stops post k st st' N ltac:(tauto) R2 D).
  - change (ts = pre ++ [tk (TFun f) q] ++ post) in E. rewrite app_assoc in E. destruct (accepted_split _ _ _ A E) as ([k st] & R1 & st' & R2 & D).
    apply run_last in R1. cbn in R1. exact (nothing_stops post k st st' N ltac:(tauto) R2 D).
  - change (ts = pre ++ [tk t q] ++ tk u r :: post) in E. rewrite app_assoc in E. destruct (accepted_split _ _ _ A E) as ([k st] & R1 & st' & R2 & D).
    apply run_last in R1. cbn [run pd_value] in R2.
    assert (S : st = Done \/ st = FirstVar) by (destruct t; cbn in *; tauto). destruct S as [-> | ->]; destruct u; cbn in *; try discriminate; destruct U.
Qed.
Lemma complaint_no_tree ts text p t : syntax_complaint ts text p -> ~ line_tree ts t.
Proof. intros C H. apply line_accepted in H. exact (complaint_rejected _ _ _ C H). Qed.
