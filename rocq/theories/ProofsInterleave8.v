(** ProofsInterleave8.v -- interleaved calls (C89-C91): every line. *)
From Verif Require Import Base Position Num TokenTypes Errors Token Operations SavedData Variables InputHistory
  SyntaxTree Commands Calculate Editor Sessions Main Io Together Interleave SpecGrammar SpecEval SpecHistory SpecSyntax SpecEditor SpecCalc SpecSession SpecData SpecMain SpecTogether SpecInterleave.
From Verif Require Import ProofsNum ProofsEval ProofsDb ProofsDb2 ProofsDb3 ProofsDb4 ProofsEditor4 ProofsCalc ProofsCalc2 ProofsCalc3 ProofsCalc4 ProofsCalc5 ProofsCalc6 ProofsCalc7 ProofsCalc8 ProofsCalc9 ProofsCalc10 ProofsCalm ProofsCalm2 ProofsMain ProofsMain2 ProofsTogether ProofsInterleave ProofsInterleave2 ProofsInterleave3 ProofsInterleave4 ProofsInterleave5 ProofsInterleave6 ProofsInterleave7.
From Coq Require Import String Lia.
Local Open Scope nat_scope.
Local Open Scope list_scope.

Lemma wp_and {A} (P Q : list moment -> A -> Prop) t : forall l, wp P l t -> wp Q l t -> wp (fun l' a => P l' a /\ Q l' a) l t.
Proof. induction t as [a|c k IH]; intros l H1 H2; [split; assumption|]. cbn [wp] in *. intros m W E. apply IH; auto. Qed.

(** ** The calls of a line *)
Fixpoint calls {A} (P : call -> Prop) (t : io A) : Prop := match t with Finished _ => True | Ask c k => P c /\ forall r, calls P (k r) end.
Lemma calls_bind {A B} P (t : io A) (f : A -> io B) : calls P t -> (forall a, calls P (f a)) -> calls P (io_bind t f).
Proof. induction t as [a|c k IH]; intros H F; [apply F|]. destruct H as (H & K). split; [exact H|]. intros r. apply IH; [apply K|exact F]. Qed.
Lemma calls_wp {A} P (t : io A) : calls P t -> forall l, wp (fun l' _ => exists l'', l' = l ++ l'' /\ Forall (fun m => P (m_call m)) l'') l t.
Proof.
  induction t as [a|c k IH]; intros H l; [exists []; split; [symmetry; apply app_nil_r|constructor]|]. destruct H as (H & K). cbn [wp]. intros m W E. eapply wp_weaken; [apply IH, K|].
  cbn. intros l' _ (l'' & -> & F). exists (m :: l''). rewrite <- app_assoc. split; [reflexivity|]. constructor; [rewrite E; exact H|exact F].
Qed.
Definition not_recording (c : call) : Prop := forall text, c <> AddInput text.
Lemma calls_then {A B} P (t : io (vstore * outcome failure A)) (f : A -> vstore -> io (vstore * outcome failure B)) : calls P t -> (forall a vars, calls P (f a vars)) -> calls P (io_then t f).
Proof. intros H F. apply calls_bind; [exact H|]. intros [vars [a|e|p]]; [apply F|exact I..]. Qed.
Lemma calls_reload vars y : calls not_recording (reload_io vars y).
Proof. split; [discriminate|]. intros r. exact I. Qed.
Lemma calls_exec pr a n : forall vars, calls not_recording (exec_io pr a n vars).
Proof.
  induction n as [v p|y p|o p n IH|o p n1 n2 IH1 IH2|f p ns q IH|p q n IH] using node_in; intros vars.
  - exact I.
  - cbn [exec_io]. unfold variable_io. apply calls_bind; [|intros; exact I]. unfold lookup_io. destruct (vs_get vars y); [exact I|apply calls_reload].
  - cbn [exec_io]. apply calls_then; [apply IH|intros; exact I].
  - cbn [exec_io]. apply calls_then; [apply IH1|]. intros. apply calls_then; [apply IH2|intros; exact I].
  - rewrite fun_io. apply calls_then; [|intros; exact I]. revert vars. induction ns as [|m ns IHn]; intros vars; [exact I|]. cbn [list_io].
    apply calls_then; [apply IH; left; reflexivity|]. intros. apply calls_then; [apply IHn; intros n Hn; apply IH; right; exact Hn|intros; exact I].
  - cbn [exec_io]. apply IH.
Qed.
Lemma calls_touches names id : calls not_recording (touch_loop_io names id).
Proof. induction names as [|y names IH]; [exact I|]. cbn [touch_loop_io touch_io io_bind]. split; [discriminate|]. intros r. cbn. destruct (done_of r); [exact IH|exact I..]. Qed.
Lemma calls_reloads names : forall out touched vars, calls not_recording (reload_loop_io names out touched vars).
Proof.
  induction names as [|y names IH]; intros out touched vars; [exact I|]. cbn [reload_loop_io]. cbv zeta. apply calls_bind; [apply calls_reload|].
  intros [vars' [[v|]|e|p]]; cbn [fst snd]; [apply IH|apply IH|exact I..].
Qed.
Lemma calls_purges names : forall vars, calls not_recording (purge_loop_io names vars).
Proof.
  induction names as [|y names IH]; intros vars; [exact I|]. cbn [purge_loop_io purge_io io_bind]. split; [discriminate|]. intros r. cbn [fst snd io_bind]. destruct (done_of r); [apply IH|exact I..].
Qed.
Lemma calls_command pr ord x c arguments a vars : calls not_recording (command_io pr ord x c arguments a vars).
Proof.
  assert (Q : forall c0, calls not_recording (let '(a', _, r) := run_command pr ord x c0 arguments a (mkEnv (Some vars) (Some some_handle)) in Finished (a', vars, r))).
  { intros c0. destruct (run_command _ _ _ _ _ _ _) as [[a' s'] r]. exact I. }
  destruct c; try apply Q; clear Q; cbn [command_io].
  - destruct (tokenize_variable_list _) as [l|e|p]; [|exact I..]. apply calls_bind; [apply calls_reloads|intros; exact I].
  - destruct (tokenize_variable_list _) as [l|e|p]; [|exact I..]. apply calls_bind; [apply calls_purges|intros; exact I].
  - destruct (tokenize_int_list _ _ _) as [[|i [|j l]]|e|p]; try exact I.
    + split; [discriminate|intros; exact I].
    + destruct (validate_max_history_size _); [exact I|]. split; [discriminate|intros; exact I].
Qed.
Lemma calls_body pr ord x input id a vars : calls not_recording (body_io pr ord x input id a vars).
Proof.
  unfold body_io. destruct (tokenize input (a_radix a)) as [[ts|name arguments]|e|p]; [| |exact I..].
  - apply calls_bind; [apply calls_touches|]. intros [u|e|p]; [|exact I..]. destruct ts as [|t0 ts']; [exact I|]. destruct (syntax_tree_new _) as [t|e|p]; [|exact I..].
    apply calls_bind; [|intros; exact I]. unfold tree_io. apply calls_then; [apply calls_exec|]. intros v vars1. destruct (st_var t); [|exact I]. split; [discriminate|intros; exact I].
  - apply calls_bind; [unfold execute_io; destruct (assoc _ _); [apply calls_command|exact I]|]. intros [[a' vars'] [[m tv]|e|p]]; [|exact I..]. apply calls_bind; [apply calls_touches|intros; exact I].
Qed.

(** ** Runtime errors *)
Definition rt_post {A} (id : Z) (l : list moment) (r : outcome failure A) : Prop := forall e, r = Err (RuntimeError e) -> e = SqliteConstraint /\ evicted l id.
Lemma answers_no_runtime pr a val ts e : ~ answers pr a val ts (Err (RuntimeError e)).
Proof.
  intros H. inversion H as [| |n e0 _ M| |]; subst.
  assert (HP : forall p x y r e, power_with pr a p x y r -> r <> Fails (RuntimeError e)).
  { clear. intros p x y r e P. unfold power_with in P. destruct (digits_kept pr a); [|subst r; discriminate].
    destruct P as [P|(q & -> & _)]; [|discriminate]. inversion P; subst; discriminate. }
  assert (K : (forall n r, meaning (has_values val) (power_with pr a) n r -> forall e, r <> Fails (RuntimeError e)) /\
    (forall ns qs, meanings (has_values val) (power_with pr a) ns qs -> True) /\
    (forall ns r, first_stop (has_values val) (power_with pr a) ns r -> forall e, r <> Fails (RuntimeError e))).
  { clear M H. apply meaning_mutind; intros; auto; try discriminate.
    - unfold has_values in H. destruct (val x) as [v|]; [destruct H as (q & -> & _)|subst r]; discriminate.
    - match goal with H : unary _ _ _ _ _ |- _ => inversion H; subst end; try discriminate. eapply HP. eassumption.
    - match goal with H : binary _ _ _ _ _ _ |- _ => inversion H; subst end; try discriminate. eapply HP. eassumption. }
  exact (proj1 K _ _ M e eq_refl).
Qed.
(** Values for the variables that fit what was remembered and missing. *)
Lemma some_values pr a ts l vars missing r : lacking l vars missing -> (forall val, compatible vars val -> (forall y, missing = Some y -> val y = None) -> answers pr a val ts r) ->
  exists val, answers pr a val ts r.
Proof.
  intros L H. exists (vs_get vars). apply H; [intros y v E; exact E|]. intros y E. apply (L y E).
Qed.
Lemma wp_rt_reloads names : forall out touched vars l, wp (fun l' (vr : vstore * outcome runtime_error (str * list str)) => exists mt, snd vr = Ok mt) l (reload_loop_io names out touched vars).
Proof.
  induction names as [|y names IH]; intros out touched vars l; [eexists; reflexivity|]. cbn [reload_loop_io reload_io io_bind wp]. cbv zeta. intros m W C. cbn [io_bind fst snd].
  destruct (get_moment m y W C) as [(v & -> & _)|(-> & _)]; cbn [value_of]; apply IH.
Qed.
Lemma wp_rt_purges names : forall vars l, wp (fun l' (vr : vstore * outcome runtime_error unit) => snd vr = Ok tt) l (purge_loop_io names vars).
Proof.
  induction names as [|y names IH]; intros vars l; [reflexivity|]. cbn [purge_loop_io purge_io io_bind wp]. intros m (_ & st & _ & E & _) C. rewrite C in E. cbn in E. rewrite E. cbn [done_of fst snd io_bind]. apply IH.
Qed.
Lemma quiet_no_runtime pr ord x c arguments a s a' s' r : keeps_state c = true -> run_command pr ord x c arguments a s = (a', s', r) -> forall e, r <> Err (RuntimeError e).
Proof.
  intros K E e ->. destruct c; try discriminate K; cbn [run_command] in E.
  - unfold exec_help in E. destruct (ptrim arguments) as [al|e'|p] eqn:P; [|destruct (ptrim_no_err _ _ P)|discriminate E].
    destruct (pd_value al); [discriminate E|]. destruct (assoc _ _); discriminate E.
  - unfold exec_bool_setting, cmd_done in E. cbv zeta in E. destruct (trim _); [|destruct (_ || _)%bool; [|destruct (_ || _)%bool]]; discriminate E.
  - unfold exec_radix in E. destruct (parse_radix_arg pr arguments) as [[v|]|e'|p] eqn:P; try discriminate E. apply pair_equal_spec in E as [_ E]. injection E as ->. exact (int_list_radix_failure _ _ _ P).
  - unfold exec_converttoradix in E. destruct (str_eqb _ _); [discriminate E|].
    destruct (parse_radix_arg pr arguments) as [[v|]|e'|p] eqn:P; try discriminate E. apply pair_equal_spec in E as [_ E]. injection E as ->. exact (int_list_radix_failure _ _ _ P).
  - unfold exec_bool_setting, cmd_done in E. cbv zeta in E. destruct (trim _); [|destruct (_ || _)%bool; [|destruct (_ || _)%bool]]; discriminate E.
  - unfold exec_bool_setting, cmd_done in E. cbv zeta in E. destruct (trim _); [|destruct (_ || _)%bool; [|destruct (_ || _)%bool]]; discriminate E.
  - unfold exec_precision in E. cbv zeta in E. destruct (tokenize_int_list _ _ _) as [[|i [|j [|k l]]]|e'|p]; try discriminate E.
    + destruct (check_precision a i None) as [[p1 e1]|e'|p] eqn:P; try discriminate E. apply pair_equal_spec in E as [_ E]. injection E as ->. exact (check_precision_failure _ _ _ _ P).
    + destruct (check_precision a i (Some j)) as [[p1 e1]|e'|p] eqn:P; try discriminate E. apply pair_equal_spec in E as [_ E]. injection E as ->. exact (check_precision_failure _ _ _ _ P).
Qed.
Lemma wp_rt_command pr ord x c arguments a vars l : wp (fun l' (avr : command_answer) => forall e, snd avr <> Err (RuntimeError e)) l (command_io pr ord x c arguments a vars).
Proof.
  assert (Q : keeps_state c = true -> wp (fun (l' : list moment) (avr : command_answer) => forall e, snd avr <> Err (RuntimeError e)) l (let '(a', _, r) := run_command pr ord x c arguments a (mkEnv (Some vars) (Some some_handle)) in Finished (a', vars, r))).
  { intros K. destruct (run_command _ _ _ _ _ _ _) as [[a' s'] r] eqn:E. cbn [wp snd]. eapply quiet_no_runtime; eauto. }
  destruct c; try (apply Q; reflexivity); clear Q; cbn [command_io].
  - destruct (tokenize_variable_list _) as [vs|e|p]; [|cbn; discriminate..]. eapply wp_bind; [apply wp_rt_reloads|]. cbn. intros l' vr (mt & ->). discriminate.
  - destruct (tokenize_variable_list _) as [vs|e|p]; [|cbn; discriminate..]. eapply wp_bind; [apply wp_rt_purges|]. cbn. intros l' vr ->. discriminate.
  - destruct (tokenize_int_list _ _ _) as [[|i [|j vs]]|e|p]; [| |cbn; discriminate..].
    + cbn [wp]. intros m (_ & st & _ & E & _) C. rewrite C in E. cbn [spec_call snd] in E. rewrite E. cbn. discriminate.
    + destruct (validate_max_history_size _) eqn:V; [cbn; discriminate|]. cbn [wp]. intros m (_ & st & _ & E & _) C. rewrite C in E. cbn [spec_call] in E.
      unfold validate_max_history_size in V. destruct (Z.ltb (pd_value i) 1); [discriminate V|]. cbn [snd] in E. rewrite E. cbn. discriminate.
Qed.
Lemma wp_rt_body pr ord x input id a vars l : valid_settings a -> vars_ok vars -> l <> [] ->
  wp (fun l' (avr : args * vstore * outcome failure str) => rt_post id l' (snd avr)) l (body_io pr ord x input id a vars).
Proof.
  intros Ha V N. destruct (tokenize input (a_radix a)) as [[ts|name arguments]|e|p] eqn:T.
  - eapply wp_weaken; [apply (wp_expression pr ord x input id a vars l ts Ha V N T)|]. cbn. intros l' [[a' vars'] r] (_ & _ & H) e Er. cbn [fst snd] in *. subst r. inversion H as [vars1 Ev|r missing K L An|]; subst.
    + split; [reflexivity|exact Ev].
    + destruct (some_values pr a ts l' vars' missing _ L An) as (val & X). destruct (answers_no_runtime _ _ _ _ _ X).
  - unfold body_io. rewrite T. eapply wp_bind with (P := fun l' avr => (forall e, snd avr <> Err (RuntimeError e)) /\ exists l'', l' = l ++ l'').
    + apply wp_prefix with (P := fun l' (avr : command_answer) => forall e, snd avr <> Err (RuntimeError e)). unfold execute_io. destruct (assoc _ _); [apply wp_rt_command|]. cbn. intros e. unfold no_such_command. discriminate.
    + cbn. intros l' [[a' vars'] r] (Nr & l'' & ->). cbn [snd] in Nr. destruct r as [[m t]|e|p].
      * eapply wp_bind; [apply wp_touches; destruct l; [congruence|discriminate]|]. cbn. intros l2 r (_ & [->|(-> & Ev)]) e; cbn [lift_rt snd]; [discriminate|]. intros [= <-]. auto.
      * cbn. intros e0 [= ->]. destruct (Nr e0 eq_refl).
      * cbn. intros e0. discriminate.
  - unfold body_io. rewrite T. cbn. intros e0. discriminate.
  - unfold body_io. rewrite T. cbn. intros e0. discriminate.
Qed.

(** ** Whole lines *)
Lemma add_moment m line : well m -> m_call m = AddInput line -> exists id, m_reply m = RId id /\ exists old, inputs_of (m_post m) = old ++ [(id, line)].
Proof.
  intros (_ & st & R & E & R') C. rewrite C in E, R'. cbn [spec_call snd fst] in E, R'. exists (next_id (st_inputs st)). split; [exact E|].
  rewrite (rep_inputs _ _ R'). cbn [shrink st_inputs st_cap]. pose proof (rp_cap_pos _ _ R) as P. unfold newest. rewrite app_length. cbn [List.length]. rewrite skipn_app.
  replace (List.length (st_inputs st) + 1 - Z.to_nat (st_cap st) - List.length (st_inputs st)) with 0 by lia. cbn [skipn]. eauto.
Qed.
Definition line_post pr a vars line (l : list moment) (ans : line_answer) : Prop :=
  exists m0 l2 id a' h' vars' r, l = m0 :: l2 /\ m_call m0 = AddInput line /\ (exists old, inputs_of (m_post m0) = old ++ [(id, line)]) /\
    Forall (fun m => not_recording (m_call m)) l2 /\ ans = (a', h', vars', r) /\ rt_post id l r /\
    forall ts, tokenize line (a_radix a) = Ok (PTokens ts) -> a' = a /\ comes_to pr a ts vars id l vars' r.
Lemma wp_line pr ord x line a h vars : valid_settings a -> vars_ok vars -> @current_line runtime_error h = Ok line ->
  wp (line_post pr a vars line) [] (line_io pr ord x line a h vars).
Proof.
  intros Ha V L. unfold line_io. rewrite L. cbv zeta. cbn [wp app]. intros m0 W0 C0. destruct (add_moment m0 line W0 C0) as (id & -> & I). cbn [id_of].
  assert (N : [m0] <> []) by discriminate.
  eapply wp_bind with (P := fun l' avr => (exists l2, l' = m0 :: l2 /\ Forall (fun m => not_recording (m_call m)) l2) /\ rt_post id l' (snd avr) /\
    forall ts, tokenize line (a_radix a) = Ok (PTokens ts) -> fst (fst avr) = a /\ comes_to pr a ts vars id l' (snd (fst avr)) (snd avr)).
  - destruct (tokenize line (a_radix a)) as [[ts|name arguments]|e|p] eqn:T.
    1: eapply wp_weaken; [apply (wp_and _ _ _ _ (calls_wp not_recording _ (calls_body pr ord x line id a vars) [m0]) (wp_and _ _ _ _ (wp_rt_body pr ord x line id a vars [m0] Ha V N) (wp_expression pr ord x line id a vars [m0] ts Ha V N T)))|];
       cbn; intros l' avr ((l2 & -> & F) & Rt & Ea & _ & Ct); split; [exists l2; auto|]; split; [exact Rt|]; intros ts0 [= <-]; auto.
    all: eapply wp_weaken; [apply (wp_and _ _ _ _ (calls_wp not_recording _ (calls_body pr ord x line id a vars) [m0]) (wp_rt_body pr ord x line id a vars [m0] Ha V N))|];
       cbn; intros l' avr ((l2 & -> & F) & Rt); split; [exists l2; auto|]; split; [exact Rt|]; discriminate.
  - cbn. intros l' [[a' vars'] r] ((l2 & -> & F) & Rt & X). cbn [fst snd] in *. exists m0, l2, id, a', (mkIH (ih_internal h ++ [line]) (ih_db h) [Some []] 0 (ih_exhausted h)), vars', r. repeat (split; [solve [auto]|]). exact X.
Qed.
