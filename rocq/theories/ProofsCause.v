(** ProofsCause.v -- why a line ends with a runtime error (C105): the structure of a line. *)
From Verif Require Import Base Position Num TokenTypes Errors Token Operations SavedData Variables InputHistory
  SyntaxTree Commands Calculate Editor Sessions Main Io Together Interleave SpecGrammar SpecEval SpecHistory SpecSyntax SpecEditor SpecCalc SpecSession SpecData SpecMain SpecTogether SpecInterleave.
From Verif Require Import ProofsNum ProofsCommands ProofsCalc3 ProofsInterleave ProofsInterleave2 ProofsInterleave3 ProofsInterleave8 ProofsCalc5 ProofsInterleave.
From Coq Require Import String Lia.
Local Open Scope nat_scope.
Local Open Scope list_scope.

(** Replies of the kind the call has. *)
Definition fits (c : call) (r : reply) : Prop :=
  match r with
  | RError _ | RCrash _ => True
  | RId _ => exists text, c = AddInput text
  | RValue _ => exists y, c = GetVariable y
  | RMax _ => c = GetMax
  | RDone => match c with SetVariable _ _ _ | TouchVariable _ _ | ClearVariable _ | SetMax _ => True | _ => False end
  | RInput _ | RClosed => False
  end.
(** An error ends the computation and is what it ends with ([F]); it ends in [Q] otherwise.  All calls satisfy [P]. *)
Fixpoint honest {A} (P : call -> Prop) (F : runtime_error -> A -> Prop) (Q : A -> Prop) (t : io A) : Prop :=
  match t with
  | Finished a => Q a
  | Ask c k => P c /\ forall r, fits c r -> match r with RError e => exists a, k r = Finished a /\ F e a | _ => honest P F Q (k r) end
  end.
Lemma honest_bind {A B} P (F1 : runtime_error -> A -> Prop) Q1 (F2 : runtime_error -> B -> Prop) Q2 t f : honest P F1 Q1 t ->
  (forall a, Q1 a -> honest P F2 Q2 (f a)) -> (forall e a, F1 e a -> exists b, f a = Finished b /\ F2 e b) -> honest P F2 Q2 (io_bind t f).
Proof.
  intros H K L. induction t as [a|c k IH]; [apply K, H|]. destruct H as (Pc & H). cbn [io_bind honest]. split; [exact Pc|]. intros r Fr. specialize (H r Fr). specialize (IH r).
  destruct r; try (apply IH, H). destruct H as (a & -> & Fa). cbn [io_bind]. destruct (L _ _ Fa) as (b & E & Fb). exists b. auto.
Qed.

(** What a line does with the number its record got, and with capacities. *)
Definition own_calls (id : Z) (c : call) : Prop :=
  match c with
  | SetVariable _ _ n | TouchVariable _ n => n = id
  | SetMax n => (1 <= n)%Z
  | GetVariable _ | ClearVariable _ | GetMax => True
  | _ => False
  end.
(** Runtime errors and outcomes. *)
Definition raises {A} (e : runtime_error) (o : outcome failure A) : Prop := o = Err (RuntimeError e).
Definition no_raise {A} (o : outcome failure A) : Prop := forall e, o <> Err (RuntimeError e).
Definition raises' {A} (e : runtime_error) (o : outcome runtime_error A) : Prop := o = Err e.
Definition no_raise' {A} (o : outcome runtime_error A) : Prop := forall e, o <> Err e.
Notation on_snd R := (fun vr => R (snd vr)).
Notation err_snd R := (fun e vr => R e (snd vr)).

Lemma done_raises r c : fits c r -> (forall e, r <> RError e) -> (match c with SetVariable _ _ _ | TouchVariable _ _ | ClearVariable _ | SetMax _ => True | _ => False end) -> no_raise' (done_of r).
Proof. intros Fr N C e. destruct r; cbn [done_of]; try discriminate; cbn in Fr; try (destruct Fr as (? & ->); destruct C); try (subst c; destruct C); try destruct Fr. destruct (N _ eq_refl). Qed.

Lemma unary_quiet pr a o p x : no_raise (exec_unary pr a o p x).
Proof. intros e. destruct o; cbn [exec_unary]; try discriminate. unfold exec_power, u8_add. destruct (N.ltb _ _); [|destruct pr; [discriminate|]]; cbn [bind]; (destruct (exponentiate _ _ _ _ _); cbn; discriminate). Qed.
Lemma binary_quiet pr a o p x y : no_raise (exec_binary pr a o p x y).
Proof.
  intros e. destruct o; cbn [exec_binary]; try discriminate.
  - destruct (Z.eqb _ 0) eqn:Z; [discriminate|]. unfold ratio_div. rewrite Z. discriminate.
  - unfold ratio_rem. destruct (Z.eqb _ 0); discriminate.
  - unfold exec_power, u8_add. destruct (N.ltb _ _); [|destruct pr; [discriminate|]]; cbn [bind]; (destruct (exponentiate _ _ _ _ _); cbn; discriminate).
Qed.
Lemma function_quiet f p xs : no_raise (exec_function f p xs).
Proof. intros e. destruct xs; discriminate. Qed.

Section Line.
  Context (pr : profile) (id : Z).
  Notation own := (own_calls id).
  Ltac reply r Fr := destruct r; cbn; try (intros e; discriminate); try (destruct Fr; discriminate || congruence); try destruct Fr.
  Lemma honest_touch y : honest own raises' no_raise' (touch_io y id).
  Proof. cbn. split; [reflexivity|]. intros r Fr. reply r Fr; eexists; split; reflexivity. Qed.
  Lemma honest_reload vars y : honest own (err_snd raises') (on_snd no_raise') (reload_io vars y).
  Proof. cbn. split; [exact Logic.I|]. intros r Fr. reply r Fr; eexists; split; reflexivity. Qed.
  Lemma honest_then {A B} (t : io (vstore * outcome failure A)) (f : A -> vstore -> io (vstore * outcome failure B)) :
    honest own (err_snd raises) (on_snd no_raise) t -> (forall a vars, honest own (err_snd raises) (on_snd no_raise) (f a vars)) ->
    honest own (err_snd raises) (on_snd no_raise) (io_then t f).
  Proof.
    intros H K. unfold io_then. eapply honest_bind; [exact H| |].
    - intros [vars o] N. cbn [fst snd] in *. destruct o as [a|e|p]; [apply K| |]; cbn; intros e0 E; [injection E as ->; destruct (N e0 eq_refl)|discriminate].
    - intros e [vars o] E. cbn [fst snd] in *. red in E. subst o. eexists. split; reflexivity.
  Qed.
  Lemma honest_variable y p vars : honest own (err_snd raises) (on_snd no_raise) (variable_io y p vars).
  Proof.
    unfold variable_io, lookup_io. destruct (vs_get vars y); [cbn; intros e; discriminate|]. eapply honest_bind; [apply honest_reload| |].
    - intros [vars1 o] N. cbn [fst snd honest] in *. intros e. destruct o as [[v|]|e1|p1]; try discriminate. destruct (N e1 eq_refl).
    - intros e [vars1 o] E. cbn [fst snd] in *. red in E. subst o. eexists. split; reflexivity.
  Qed.
  Lemma honest_exec a n : forall vars, honest own (err_snd raises) (on_snd no_raise) (exec_io pr a n vars).
  Proof.
    induction n as [v p|x p|o p n IH|o p n1 n2 IH1 IH2|f p ns q IH|p q n IH] using node_in; intros vars.
    - cbn. intros e. discriminate.
    - apply honest_variable.
    - cbn [exec_io]. apply honest_then; [apply IH|]. intros v vars1. cbn. apply unary_quiet.
    - cbn [exec_io]. apply honest_then; [apply IH1|]. intros v vars1. apply honest_then; [apply IH2|]. intros w vars2. cbn. apply binary_quiet.
    - rewrite fun_io. apply honest_then; [|intros v vars1; cbn; apply function_quiet].
      revert vars. induction ns as [|m ns IHl]; intros vars; [cbn; intros e; discriminate|]. cbn [list_io]. apply honest_then; [apply IH; left; reflexivity|].
      intros v vars1. apply honest_then; [apply IHl; intros m0 I0; apply IH; right; exact I0|]. intros w vars2. cbn. intros e. discriminate.
    - cbn [exec_io]. apply IH.
  Qed.
  Lemma honest_tree a t vars : honest own (err_snd raises) (on_snd no_raise) (tree_io pr a t id vars).
  Proof.
    unfold tree_io. apply honest_then; [apply honest_exec|]. intros v vars1. destruct (st_var t) as [y|]; [|cbn; intros e; discriminate].
    cbn. split; [reflexivity|]. intros r Fr. reply r Fr; eexists; split; reflexivity.
  Qed.
  Lemma honest_touches names : honest own raises' no_raise' (touch_loop_io names id).
  Proof.
    induction names as [|y names IH]; [cbn; intros e; discriminate|]. cbn [touch_loop_io]. eapply honest_bind; [apply honest_touch| |].
    - intros o N. destruct o as [u|e|p]; [exact IH|destruct (N e eq_refl)|cbn; intros e; discriminate].
    - intros e o E. red in E. subst o. eexists. split; reflexivity.
  Qed.
  Lemma honest_reloads names : forall out touched vars, honest own (err_snd raises') (on_snd no_raise') (reload_loop_io names out touched vars).
  Proof.
    induction names as [|y names IH]; intros out touched vars; [cbn; intros e; discriminate|]. cbn [reload_loop_io]. cbv zeta. eapply honest_bind; [apply honest_reload| |].
    - intros [vars1 o] N. cbn [fst snd] in *. destruct o as [[v|]|e|p]; [apply IH|apply IH|destruct (N e eq_refl)|cbn; intros e; discriminate].
    - intros e [vars1 o] E. cbn [fst snd] in *. red in E. subst o. eexists. split; reflexivity.
  Qed.
  Lemma honest_purges names : forall vars, honest own (err_snd raises') (on_snd no_raise') (purge_loop_io names vars).
  Proof.
    induction names as [|y names IH]; intros vars; [cbn; intros e; discriminate|]. cbn [purge_loop_io]. eapply honest_bind with (F1 := err_snd raises') (Q1 := on_snd no_raise').
    - cbn. split; [exact Logic.I|]. intros r Fr. reply r Fr; eexists; split; reflexivity.
    - intros [vars1 o] N. cbn [fst snd] in *. destruct o as [v|e|p]; [apply IH|destruct (N e eq_refl)|cbn; intros e; discriminate].
    - intros e [vars1 o] E. cbn [fst snd] in *. red in E. subst o. eexists. split; reflexivity.
  Qed.
  Lemma honest_command ord x c arguments a vars : honest own (err_snd raises) (on_snd no_raise) (command_io pr ord x c arguments a vars).
  Proof.
    assert (Q : keeps_state c = true -> honest own (err_snd raises) (on_snd no_raise) (let '(a', _, r) := run_command pr ord x c arguments a (mkEnv (Some vars) (Some some_handle)) in Finished (a', vars, r))).
    { intros K. destruct (run_command _ _ _ _ _ _ _) as [[a' s'] r] eqn:E. cbn [honest snd]. intros e. eapply quiet_no_runtime; eauto. }
    destruct c; try (apply Q; reflexivity); clear Q; cbn [command_io].
    - destruct (tokenize_variable_list _) as [vs|e|p]; [|cbn; intros e1; discriminate..]. eapply honest_bind; [apply honest_reloads| |].
      + intros [vars1 o] N e E. cbn [fst snd] in *. destruct o as [v|e1|p]; try discriminate E. destruct (N e1 eq_refl).
      + intros e [vars1 o] E. cbn [fst snd] in *. red in E. subst o. eexists. split; reflexivity.
    - destruct (tokenize_variable_list _) as [vs|e|p]; [|cbn; intros e1; discriminate..]. eapply honest_bind; [apply honest_purges| |].
      + intros [vars1 o] N e E. cbn [fst snd] in *. destruct o as [v|e1|p]; try discriminate E. destruct (N e1 eq_refl).
      + intros e [vars1 o] E. cbn [fst snd] in *. red in E. subst o. eexists. split; reflexivity.
    - destruct (tokenize_int_list _ _ _) as [[|i [|j vs]]|e|p]; [| |cbn; intros e1; discriminate..].
      + cbn. split; [exact Logic.I|]. intros r Fr. reply r Fr; eexists; split; reflexivity.
      + destruct (validate_max_history_size _) eqn:V; [cbn; intros e1; discriminate|]. cbn. split.
        * unfold validate_max_history_size in V. destruct (Z.ltb_spec (pd_value i) 1); [discriminate V|lia].
        * intros r Fr. reply r Fr; eexists; split; reflexivity.
  Qed.
  Lemma honest_body ord x input a vars : valid_settings a ->
    honest own (err_snd raises) (on_snd no_raise) (body_io pr ord x input id a vars).
  Proof.
    intros Ha. unfold body_io. destruct (tokenize input (a_radix a)) as [[ts|name arguments]|e|p]; [| |cbn; intros e1; discriminate..].
    - eapply honest_bind; [apply honest_touches| |].
      + intros o N. destruct o as [u|e|p]; [|destruct (N e eq_refl)|cbn; intros e; discriminate]. destruct ts as [|t ts]; [cbn; intros e; discriminate|].
        destruct (syntax_tree_new (t :: ts)) as [tr|e|p]; [|cbn; intros e1; discriminate..]. eapply honest_bind; [apply honest_tree| |].
        * intros [vars1 o] N1 e E. cbn [fst snd] in *. destruct o as [v|e1|p]; [|injection E as ->; destruct (N1 e eq_refl)|discriminate E].
          destruct (@format_result_ok failure a v Ha) as (text & X). rewrite X in E. discriminate E.
        * intros e [vars1 o] E. cbn [fst snd] in *. red in E. subst o. eexists. split; reflexivity.
      + intros e o E. red in E. subst o. eexists. split; reflexivity.
    - eapply honest_bind with (F1 := err_snd raises) (Q1 := on_snd no_raise).
      + unfold execute_io. destruct (assoc _ _); [apply honest_command|]. cbn. intros e. discriminate.
      + intros [[a' vars'] r] N. cbn [snd] in N. destruct r as [[m t]|e|p]; [|cbn; intros e1 E; injection E as ->; exact (N e1 eq_refl)|cbn; intros e; discriminate].
        eapply honest_bind; [apply honest_touches| |].
        * intros o N1 e E. cbn [snd] in E. destruct o as [u|e1|p]; cbn in E; try discriminate E. destruct (N1 e1 eq_refl).
        * intros e o E. red in E. subst o. eexists. split; reflexivity.
      + intros e [[a' vars'] r] E. cbn [snd] in E. red in E. subst r. eexists. split; reflexivity.
  Qed.
End Line.
