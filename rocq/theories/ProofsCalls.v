(** ProofsCalls.v -- the database calls a program makes for a line (C104). *)
From Verif Require Import Base Position Num TokenTypes Errors Token Operations SavedData Variables InputHistory
  SyntaxTree Commands Calculate Editor Sessions Main Io Together Interleave SpecLex SpecGrammar SpecEval SpecHistory SpecSyntax SpecEditor SpecCalc SpecSession SpecCommands SpecData SpecMain SpecTogether SpecInterleave SpecSize SpecCalls.
From Verif Require Import ProofsNum ProofsLex ProofsLex2 ProofsParse ProofsParse2 ProofsEval ProofsDb ProofsDb2 ProofsEditor4 ProofsCalc ProofsCalc2 ProofsCalc3 ProofsCalc4 ProofsCalc5 ProofsCalc6 ProofsCalc7 ProofsCalc8 ProofsCalc9 ProofsCommands ProofsCommands2 ProofsData ProofsTouch ProofsTogether ProofsInterleave ProofsInterleave2 ProofsInterleave3 ProofsInterleave6 ProofsInterleave12.
From Coq Require Import String Permutation Lia.
Local Open Scope nat_scope.
Local Open Scope list_scope.

(** ** All paths through a computation *)
Fixpoint wpc {A} (P : list call -> A -> Prop) (l : list call) (t : io A) : Prop :=
  match t with Finished a => P l a | Ask c k => forall r, wpc P (l ++ [c]) (k r) end.
Lemma wpc_weaken {A} (P Q : list call -> A -> Prop) t : forall l, wpc P l t -> (forall l' a, P l' a -> Q l' a) -> wpc Q l t.
Proof. induction t as [a|c k IH]; cbn; intros l H W; [auto|]. intros r. eapply IH; [apply H|exact W]. Qed.
Lemma wpc_bind {A B} (P : list call -> A -> Prop) (Q : list call -> B -> Prop) t f : forall l, wpc P l t ->
  (forall l' a, P l' a -> wpc Q l' (f a)) -> wpc Q l (io_bind t f).
Proof. induction t as [a|c k IH]; cbn; intros l H F; [auto|]. intros r. apply IH; [apply H|exact F]. Qed.
(** A statement about the calls made from here on. *)
Definition later {A} (P : list call -> A -> Prop) (l : list call) (l' : list call) (a : A) : Prop := exists l'', l' = l ++ l'' /\ P l'' a.
Definition makes {A} (P : list call -> A -> Prop) (t : io A) : Prop := forall l, wpc (later P l) l t.
Lemma makes_done {A} (P : list call -> A -> Prop) a : P [] a -> makes P (Finished a).
Proof. intros H l. exists []. rewrite app_nil_r. auto. Qed.
Lemma makes_ask {A} (P : list call -> A -> Prop) c k : (forall r, makes (fun l a => P (c :: l) a) (k r)) -> makes P (Ask c k).
Proof. intros H l r. eapply wpc_weaken; [apply H|]. intros l' a (l'' & -> & X). exists (c :: l''). rewrite <- app_assoc. auto. Qed.
Lemma makes_bind {A B} (P : list call -> A -> Prop) (Q : list call -> B -> Prop) t f : makes P t ->
  (forall l a, P l a -> makes (fun l' b => Q (l ++ l') b) (f a)) -> makes Q (io_bind t f).
Proof.
  intros H F l. eapply wpc_bind; [apply H|]. intros l' a (l1 & -> & X). eapply wpc_weaken; [apply (F l1 a X)|]. intros l2 b (l3 & -> & Y). exists (l1 ++ l3). rewrite app_assoc. auto.
Qed.
Lemma makes_weaken {A} (P Q : list call -> A -> Prop) t : makes P t -> (forall l a, P l a -> Q l a) -> makes Q t.
Proof. intros H W l. eapply wpc_weaken; [apply H|]. intros l' a (l1 & -> & X). exists l1. auto. Qed.

(** ** Reading variables *)
Definition knows (vars : vstore) (y : str) : Prop := vs_get vars y <> None.
(** The calls are readings, of different variables of [S] that [vars] lacks; nothing known is forgotten, and if all goes well
    what was read is known. *)
Definition reads {A} (S : str -> Prop) (vars : vstore) (l : list call) (vr : vstore * outcome failure A) : Prop :=
  exists read, l = map GetVariable read /\ some_of (fun y => S y /\ vs_get vars y = None) read /\
    (forall y, knows vars y -> knows (fst vr) y) /\ (forall v, snd vr = Ok v -> forall y, In y read -> knows (fst vr) y).
Lemma knows_insert vars y v z : knows vars z -> knows (vs_insert vars y v) z.
Proof. unfold knows. rewrite vs_get_insert. destruct (str_eqb z y); [discriminate|auto]. Qed.
Lemma some_nil (N : str -> Prop) : some_of N [].
Proof. split; [constructor|intros y []]. Qed.
Lemma reads_none {A} (S : str -> Prop) vars (o : outcome failure A) : makes (reads S vars) (Finished (vars, o)).
Proof. apply makes_done. exists []. split; [reflexivity|]. split; [apply some_nil|]. cbn. split; [auto|]. intros v _ y []. Qed.
Lemma reads_more {A} (S S' : str -> Prop) vars l (vr : vstore * outcome failure A) : (forall y, S y -> S' y) -> reads S vars l vr -> reads S' vars l vr.
Proof. intros H (read & E & (N & I) & K). exists read. split; [exact E|]. split; [|exact K]. split; [exact N|]. intros y Iy. destruct (I y Iy). auto. Qed.
Lemma reads_then {A B} (S1 S2 S : str -> Prop) vars (t : io (vstore * outcome failure A)) (f : A -> vstore -> io (vstore * outcome failure B)) :
  (forall y, S1 y -> S y) -> (forall y, S2 y -> S y) -> makes (reads S1 vars) t -> (forall v vars1, makes (reads S2 vars1) (f v vars1)) -> makes (reads S vars) (io_then t f).
Proof.
  intros H1 H2 T F. unfold io_then. eapply makes_bind; [exact T|]. intros l [vars1 o] (read & -> & (N & I) & K & V). cbn [fst snd] in *.
  assert (Stop : forall o', (forall v, o' <> Ok v) -> makes (fun l' (b : vstore * outcome failure B) => reads S vars (map GetVariable read ++ l') b) (Finished (vars1, o'))).
  { intros o' No. apply makes_done. rewrite app_nil_r. exists read. split; [reflexivity|]. split; [split; [exact N|intros y Iy; destruct (I y Iy); auto]|]. cbn. split; [exact K|]. intros v E. destruct (No v E). }
  destruct o as [v|e|p]; [|apply Stop; discriminate..]. eapply makes_weaken; [apply F|]. intros l' [vars2 o2] (read2 & -> & (N2 & I2) & K2 & V2). cbn [fst snd] in *.
  exists (read ++ read2). split; [rewrite map_app; reflexivity|]. split; [split|].
  - revert N V. clear - N2 I2. induction read as [|y read IH]; intros N V; [exact N2|]. inversion N; subst. cbn [app]. constructor.
    + intros In0. apply in_app_or in In0 as [X|X]; [contradiction|]. apply (V v eq_refl y); [left; reflexivity|]. apply (I2 y X).
    + apply IH; [assumption|]. intros v' E y' Iy. apply (V v' E). right. exact Iy.
  - intros y Iy. apply in_app_or in Iy as [X|X]; [destruct (I y X); auto|]. destruct (I2 y X) as [A1 A2]. split; [auto|].
    destruct (vs_get vars y) eqn:G; [|reflexivity]. exfalso. apply (K y); [unfold knows; congruence|exact A2].
  - cbn. split; [auto|]. intros v2 E y Iy. apply in_app_or in Iy as [X|X]; [apply K2, (V v eq_refl y X)|apply (V2 v2 E y X)].
Qed.
Lemma reads_variable y p vars : makes (reads (fun z => z = y) vars) (variable_io y p vars).
Proof.
  unfold variable_io, lookup_io. destruct (vs_get vars y) as [v|] eqn:G; [cbn [io_bind]; apply reads_none|]. cbn [reload_io io_bind].
  apply makes_ask. intros r. apply makes_done. cbn [fst snd]. exists [y]. split; [reflexivity|]. split; [split; [repeat constructor; intros []|]; intros z [<-|[]]; auto|].
  cbn [fst snd]. destruct (value_of r) as [[v|]|e|q]; cbn; (split; [intros z Kz; try apply knows_insert; exact Kz|]); try discriminate.
  intros v' _ z [<-|[]]. unfold knows. rewrite vs_get_insert, (proj2 (str_eqb_spec y y) eq_refl). discriminate.
Qed.
Definition named (n : node) (y : str) : Prop := exists p, subnode (NVar y p) n.
Lemma reads_exec pr a n : forall vars, makes (reads (named n) vars) (exec_io pr a n vars).
Proof.
  induction n as [v p|x p|o p n IH|o p n1 n2 IH1 IH2|f p ns q IH|p q n IH] using node_in; intros vars.
  - apply reads_none.
  - cbn [exec_io]. eapply makes_weaken; [apply reads_variable|]. intros l vr. apply reads_more. intros y ->. exists p. constructor.
  - cbn [exec_io]. eapply reads_then with (S1 := named n) (S2 := fun _ => False); [intros y (r & H); exists r; constructor; exact H|intros y []|apply IH|intros v vars1; apply reads_none].
  - cbn [exec_io]. eapply reads_then with (S1 := named n1) (S2 := named n2); [intros y (r & H); exists r; apply sn_left; exact H|intros y (r & H); exists r; apply sn_right; exact H|apply IH1|].
    intros v vars1. eapply reads_then with (S1 := named n2) (S2 := fun _ => False); [auto|intros y []|apply IH2|intros w vars2; apply reads_none].
  - rewrite fun_io. eapply reads_then with (S1 := fun y => exists m, In m ns /\ named m y) (S2 := fun _ => False); [intros y (m & Im & r & H); exists r; eapply sn_fun; eauto|intros y []| |intros v vars1; apply reads_none].
    revert vars. induction ns as [|m ns IHl]; intros vars; [apply reads_none|]. cbn [list_io].
    eapply reads_then with (S1 := named m) (S2 := fun y => exists m0, In m0 ns /\ named m0 y); [intros y H; exists m; split; [left; reflexivity|exact H]|intros y (m0 & I0 & H); exists m0; split; [right; exact I0|exact H]|apply IH; left; reflexivity|].
    intros v vars1. eapply reads_then with (S1 := fun y => exists m0, In m0 ns /\ named m0 y) (S2 := fun _ => False); [auto|intros y []|apply IHl; intros m0 I0; apply IH; right; exact I0|intros w vars2; apply reads_none].
  - cbn [exec_io]. eapply makes_weaken; [apply IH|]. intros l vr. apply reads_more. intros y (r & H). exists r. constructor. exact H.
Qed.
Lemma derives_named : (forall k ts n, derives k ts n -> forall y p, subnode (NVar y p) n -> mentions ts y) /\
  (forall ts ns, derives_args ts ns -> forall n y p, In n ns -> subnode (NVar y p) n -> mentions ts y) /\
  (forall ts ns, derives_list ts ns -> forall n y p, In n ns -> subnode (NVar y p) n -> mentions ts y).
Proof.
  assert (App1 : forall a b y, mentions a y -> mentions (a ++ b) y) by (intros a b y (p & H); exists p; apply in_or_app; auto).
  assert (App2 : forall a b y, mentions b y -> mentions (a ++ b) y) by (intros a b y (p & H); exists p; apply in_or_app; auto).
  assert (Cons : forall t b y, mentions b y -> mentions (t :: b) y) by (intros t b y (p & H); exists p; right; exact H).
  apply derives_mutind; intros; try contradiction.
  - inversion H.
  - inversion H; subst. eexists. left. reflexivity.
  - inversion H1; subst. eauto.
  - inversion H1; subst. eauto.
  - inversion H2; subst. match goal with X : In _ [_] |- _ => destruct X as [<-|[]] end. eauto.
  - inversion H1; subst. eauto.
  - inversion H1; subst. eauto.
  - inversion H4; subst; [apply App1|apply App2, Cons]; eauto.
  - eauto.
  - eauto.
  - destruct H1 as [<-|[]]. eauto.
  - destruct H3 as [<-|H3]; [apply App1|apply App2, Cons]; eauto.
Qed.

(** ** The other calls of a line *)
Definition prefix_of {A} (l l' : list A) : Prop := exists r, l' = l ++ r.
Lemma prefix_nil {A} (l : list A) : prefix_of [] l.
Proof. exists l. reflexivity. Qed.
Lemma prefix_cons {A} (x : A) l l' : prefix_of l l' -> prefix_of (x :: l) (x :: l').
Proof. intros (r & ->). exists r. reflexivity. Qed.
Lemma prefix_some {A} (l l' : list A) : prefix_of l l' -> NoDup l' -> NoDup l /\ forall y, In y l -> In y l'.
Proof. intros (r & ->) N. split; [clear - N; induction l as [|x l IH]; [constructor|]; cbn [app] in N; inversion N; subst; constructor; [intros H; apply H1, in_or_app; auto|auto]|]. intros y I. apply in_or_app. auto. Qed.
Lemma touches_calls names id : makes (fun l (_ : outcome runtime_error unit) => exists done, l = map (fun y => TouchVariable y id) done /\ prefix_of done names) (touch_loop_io names id).
Proof.
  induction names as [|y names IH]; [apply makes_done; exists []; split; [reflexivity|apply prefix_nil]|]. cbn [touch_loop_io touch_io io_bind]. apply makes_ask. intros r.
  assert (Stop : forall o : outcome runtime_error unit, makes (fun l (_ : outcome runtime_error unit) => exists done, TouchVariable y id :: l = map (fun z => TouchVariable z id) done /\ prefix_of done (y :: names)) (Finished o)).
  { intros o. apply makes_done. exists [y]. split; [reflexivity|apply prefix_cons, prefix_nil]. }
  destruct (done_of r) as [u|e|p]; [|apply Stop..]. eapply makes_weaken; [apply IH|]. intros l a (done & -> & P). exists (y :: done). split; [reflexivity|apply prefix_cons, P].
Qed.
Lemma reloads_calls names : forall out touched vars, makes (fun l (vr : vstore * outcome runtime_error (str * list str)) =>
  exists done, l = map GetVariable done /\ prefix_of done names /\ forall o t, snd vr = Ok (o, t) -> t = touched ++ names) (reload_loop_io names out touched vars).
Proof.
  induction names as [|y names IH]; intros out touched vars; [apply makes_done; exists []; split; [reflexivity|]; split; [apply prefix_nil|]; cbn; intros o t [= _ <-]; rewrite app_nil_r; reflexivity|].
  cbn [reload_loop_io reload_io io_bind]. cbv zeta. apply makes_ask. intros r. cbn [io_bind fst snd].
  destruct (value_of r) as [[v|]|e|p]; try (apply makes_done; exists [y]; split; [reflexivity|]; split; [apply prefix_cons, prefix_nil|]; cbn; discriminate);
    (eapply makes_weaken; [apply IH|]; intros l a (done & -> & P & T); exists (y :: done); split; [reflexivity|]; split; [apply prefix_cons, P|]; intros o t E; rewrite (T o t E), <- app_assoc; reflexivity).
Qed.
Lemma purges_calls names : forall vars, makes (fun l (vr : vstore * outcome runtime_error unit) => exists done, l = map ClearVariable done /\ prefix_of done names) (purge_loop_io names vars).
Proof.
  induction names as [|y names IH]; intros vars; [apply makes_done; exists []; split; [reflexivity|apply prefix_nil]|]. cbn [purge_loop_io purge_io io_bind]. apply makes_ask. intros r. cbn [io_bind fst snd].
  destruct (done_of r) as [u|e|p]; try (apply makes_done; exists [y]; split; [reflexivity|apply prefix_cons, prefix_nil]).
  eapply makes_weaken; [apply IH|]. intros l a (done & -> & P). exists (y :: done). split; [reflexivity|apply prefix_cons, P].
Qed.
Lemma token_variables_nodup ts : NoDup (token_variables ts).
Proof.
  induction ts as [|[t p] ts IH]; [constructor|]. cbn [token_variables pd_value]. destruct t; try exact IH. destruct (existsb _ _) eqn:E; [exact IH|]. constructor; [|exact IH]. intros H. apply existsb_name in H. congruence.
Qed.

Lemma body_calls pr ord a vars line id : iterates ord -> makes (fun l (_ : args * vstore * outcome failure str) => calls_for (a_radix a) line vars (AddInput line :: l)) (body_io pr ord the_executor line id a vars).
Proof.
  intros Ho. assert (Hin : forall l y, In y (ord l) -> In y l) by (intros l y; apply Permutation_in, Ho).
  assert (Hnd : forall l, NoDup l -> NoDup (ord l)) by (intros l N; eapply Permutation_NoDup; [apply Permutation_sym, Ho|exact N]).
  assert (Zero : forall x, makes (fun l (_ : args * vstore * outcome failure str) => calls_for (a_radix a) line vars (AddInput line :: l)) (Finished x)) by (intros x; apply makes_done, cf_nothing).
  unfold body_io. destruct (tokenize line (a_radix a)) as [[ts|name arg]|e|p] eqn:T; [| |apply Zero..].
  - eapply makes_bind; [apply touches_calls|]. intros l r (used & -> & P). destruct (prefix_some _ _ P (Hnd _ (token_variables_nodup ts))) as [N I].
    assert (U : some_of (mentions ts) used) by (split; [exact N|]; intros y Iy; apply I, Hin, token_variables_in in Iy; exact Iy).
    assert (Stop : forall x, makes (fun l' (_ : args * vstore * outcome failure str) => calls_for (a_radix a) line vars (AddInput line :: map (fun y => TouchVariable y id) used ++ l')) (Finished x)).
    { intros x. apply makes_done. change (@nil call) with (map GetVariable []). eapply cf_expression; [exact T|exact U|apply some_nil]. }
    destruct r as [r|e|p]; [|apply Stop..]. destruct ts as [|t0 ts']; [apply Stop|]. destruct (syntax_tree_new _) as [t|e|p] eqn:St; [|apply Stop..].
    apply parse_iff in St. inversion St as [ts0 n D|y p q ts0 n D]; subst; unfold tree_io; cbn [st_root st_var].
    + eapply makes_bind with (P := fun l vr => exists read, l = map GetVariable read /\ some_of (fun y => mentions (t0 :: ts') y /\ vs_get vars y = None) read).
      * unfold io_then. eapply makes_bind; [apply reads_exec|]. intros l vr (read & -> & (Nr & Ir) & _ & _).
        assert (K : some_of (fun y => mentions (t0 :: ts') y /\ vs_get vars y = None) read) by (split; [exact Nr|]; intros y Iy; destruct (Ir y Iy) as ((p & S) & G); split; [eapply (proj1 derives_named); eauto|exact G]).
        destruct (snd vr); apply makes_done; rewrite app_nil_r; eauto.
      * intros l vr (read & -> & K). apply makes_done. rewrite app_nil_r. eapply cf_expression; eauto.
    + cbn [pd_value]. eapply makes_bind with (P := fun l vr => exists read, some_of (fun z => mentions ts0 z /\ vs_get vars z = None) read /\
        (l = map GetVariable read \/ exists v, l = map GetVariable read ++ [SetVariable y v id])).
      * unfold io_then. eapply makes_bind; [apply reads_exec|]. intros l vr (read & -> & (Nr & Ir) & _ & _).
        assert (K : some_of (fun y => mentions ts0 y /\ vs_get vars y = None) read) by (split; [exact Nr|]; intros z Iy; destruct (Ir z Iy) as ((p1 & S) & G); split; [eapply (proj1 derives_named); eauto|exact G]).
        destruct (snd vr) as [v|e|p0]; [|apply makes_done; rewrite app_nil_r; eauto..]. cbn [update_io io_bind]. apply makes_ask. intros r0. apply makes_done. eauto.
      * intros l vr (read & (Nr & Ir) & [->|(v & ->)]); apply makes_done; rewrite app_nil_r.
        -- eapply cf_expression; [exact T|exact U|]. split; [exact Nr|]. intros z Iz. destruct (Ir z Iz) as ((p1 & S) & G). split; [exists p1; right; right; exact S|exact G].
        -- eapply cf_assignment; [exact T|exact U|split; assumption].
  - unfold execute_io. fold (resolve_in (pd_value name)). destruct (resolve_in (pd_value name)) as [c|] eqn:R; [|apply Zero].
    assert (P : command_aliases c = [] -> pd_value name = command_name c) by (intros A; apply (resolves_plain name c A); exact R).
    assert (Q : keeps_state c = true -> forall f, (forall a' r, (forall m t, r = Ok (m, t) -> t = []) -> makes (fun l (_ : args * vstore * outcome failure str) => calls_for (a_radix a) line vars (AddInput line :: l)) (f (a', vars, r))) ->
      makes (fun l (_ : args * vstore * outcome failure str) => calls_for (a_radix a) line vars (AddInput line :: l)) (@io_bind command_answer (args * vstore * outcome failure str) (let '(a', _, r) := run_command pr ord the_executor c arg a (mkEnv (Some vars) (Some some_handle)) in Finished (a', vars, r)) f)).
    { intros K f F. destruct (run_command _ _ _ _ _ _ _) as [[a' s'] r] eqn:Rc. apply F. apply (setting_keeps _ _ _ _ _ _ _ _ _ _ K Rc). }
    assert (IsC : forall nm, command_name c = nm -> command_aliases c = [] -> is_command (a_radix a) line nm (pd_value arg)) by (intros nm <- A; exists name, arg; split; [exact T|]; split; [apply P, A|reflexivity]).
    destruct c; try (apply Q; [reflexivity|]; intros a' r Z; destruct r as [[m t]|er|p]; [|apply Zero..]; rewrite (Z m t eq_refl); apply Zero); clear Q.
    + cbn [command_io]. destruct (tokenize_variable_list _) as [l|er|p] eqn:V; [|apply Zero..].
      assert (VL : variable_list (pd_value arg) (map pd_value l)) by (apply variable_list_iff; eauto).
      assert (Sm : forall l0, prefix_of l0 (ord (name_set l)) -> some_of (fun y => In y (map pd_value l)) l0).
      { intros l0 P0. destruct (prefix_some _ _ P0 (Hnd _ (name_set_nodup l))) as [N I]. split; [exact N|]. intros y Iy. apply name_set_in, Hin, I, Iy. }
      eapply makes_bind with (P := fun l0 (avr : command_answer) => exists read, l0 = map GetVariable read /\ prefix_of read (ord (name_set l)) /\ forall o t, snd avr = Ok (o, t) -> t = ord (name_set l)).
      * eapply makes_bind; [apply reloads_calls|]. intros l0 vr (read & -> & P0 & E). apply makes_done. exists read. rewrite app_nil_r. split; [reflexivity|]. split; [exact P0|].
        cbn [snd]. destruct (snd vr) as [[o t]|er|p]; cbn [lift_rt map_err]; [|discriminate..]. intros o' t' [= _ <-]. apply (E o t eq_refl).
      * intros l0 [[a' vars'] r] (read & -> & P0 & E). cbn [snd] in E.
        assert (Stop : forall x, makes (fun l' (_ : args * vstore * outcome failure str) => calls_for (a_radix a) line vars (AddInput line :: map GetVariable read ++ l')) (Finished x)).
        { intros x. apply makes_done. change (@nil call) with (map (fun y => TouchVariable y id) []). eapply cf_reloadvar; [apply IsC; reflexivity|exact VL|apply Sm, P0|apply some_nil]. }
        destruct r as [[m t]|er|p]; [|apply Stop..]. rewrite (E m t eq_refl). eapply makes_bind; [apply touches_calls|]. intros l1 r1 (used & -> & P1). apply makes_done. rewrite app_nil_r.
        eapply cf_reloadvar; [apply IsC; reflexivity|exact VL|apply Sm, P0|apply Sm, P1].
    + cbn [command_io]. destruct (tokenize_variable_list _) as [l|er|p] eqn:V; [|apply Zero..].
      assert (VL : variable_list (pd_value arg) (map pd_value l)) by (apply variable_list_iff; eauto).
      eapply makes_bind with (P := fun l0 (avr : command_answer) => exists done, l0 = map ClearVariable done /\ prefix_of done (ord (name_set l)) /\ forall o t, snd avr = Ok (o, t) -> t = []).
      * eapply makes_bind; [apply purges_calls|]. intros l0 vr (read & -> & P0). apply makes_done. exists read. rewrite app_nil_r. split; [reflexivity|]. split; [exact P0|].
        cbn [snd]. destruct (snd vr); [|discriminate..]. intros o t E. apply ok_inj, pair_equal_spec in E as [_ E]. congruence.
      * intros l0 [[a' vars'] r] (done & -> & P0 & E). cbn [snd] in E.
        assert (Stop : forall x, makes (fun l' (_ : args * vstore * outcome failure str) => calls_for (a_radix a) line vars (AddInput line :: map ClearVariable done ++ l')) (Finished x)).
        { intros x. apply makes_done. rewrite app_nil_r. eapply cf_purgevar; [apply IsC; reflexivity|exact VL|]. destruct (prefix_some _ _ P0 (Hnd _ (name_set_nodup l))) as [N I]. split; [exact N|]. intros y Iy. apply name_set_in, Hin, I, Iy. }
        destruct r as [[m t]|er|p]; [|apply Stop..]. rewrite (E m t eq_refl). apply Stop.
    + cbn [command_io]. destruct (tokenize_int_list pr (pd_value arg) 10) as [[|k [|j l]]|er|p] eqn:V; try apply Zero.
      * cbn [io_bind]. apply makes_ask. intros r. cbn [io_bind].
        destruct (max_of r); apply makes_done; (eapply cf_histcap; [apply IsC; reflexivity|left; reflexivity]).
      * unfold validate_max_history_size. destruct (Z.ltb_spec (pd_value k) 1) as [X|X]; [apply Zero|]. cbn [io_bind]. apply makes_ask. intros r. cbn [io_bind].
        assert (W : integers (pd_value arg) [pd_value k]) by (apply (integers_inj _ _ _ _ V); reflexivity).
        destruct (done_of r); apply makes_done; (eapply cf_histcap; [apply IsC; reflexivity|right; exists (pd_value k); split; [exact W|reflexivity]]).
Qed.
Lemma line_calls pr ord a h vars line : iterates ord -> current_line (E := runtime_error) h = Ok line ->
  makes (fun l (_ : line_answer) => calls_for (a_radix a) line vars l) (line_io pr ord the_executor line a h vars).
Proof.
  intros Ho L. unfold line_io. rewrite L. cbv zeta. apply makes_ask. intros r. destruct (id_of r) as [id|e|p]; [|apply makes_done, cf_nothing..].
  eapply makes_bind; [apply body_calls, Ho|]. intros l x H. apply makes_done. rewrite app_nil_r. exact H.
Qed.
