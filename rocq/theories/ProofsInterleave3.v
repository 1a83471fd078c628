(** ProofsInterleave3.v -- interleaved calls (C88): the file is sound at every moment. *)
From Verif Require Import Base Position Num TokenTypes Errors Token Operations SavedData Variables InputHistory
  SyntaxTree Commands Calculate Editor Sessions Main Io Together Interleave SpecGrammar SpecEval SpecHistory SpecEditor SpecCalc SpecSession SpecData SpecMain SpecTogether SpecInterleave.
From Verif Require Import ProofsNum ProofsEval ProofsEval2 ProofsEval3 ProofsDb ProofsDb2 ProofsDb4 ProofsParse3 ProofsEditor4 ProofsCalc ProofsCalc2 ProofsCalc3 ProofsCalc4 ProofsCalc5 ProofsCalc6 ProofsCalc7 ProofsCalc8 ProofsCalc9 ProofsMain ProofsMain2 ProofsTogether ProofsInterleave ProofsInterleave2.
From Coq Require Import String Lia.
Local Open Scope nat_scope.
Local Open Scope list_scope.

Definition vars_ok (vars : vstore) : Prop := forall y v, vs_get vars y = Some v -> canon v.
Lemma vars_ok_insert vars y v : vars_ok vars -> canon v -> vars_ok (vs_insert vars y v).
Proof. intros H C z w. rewrite vs_get_insert. destruct (str_eqb z y); [intros [= <-]; exact C|apply H]. Qed.
Lemma vars_ok_remove vars y : vars_ok vars -> vars_ok (vs_remove vars y).
Proof. intros H z w. rewrite vs_get_remove. destruct (str_eqb z y); [discriminate|apply H]. Qed.

(** Calls a program may make in the middle of a line, and replies it may get. *)
Definition fair (c : call) : Prop := c <> Open /\ c <> PrevInput /\ forall y q id, c = SetVariable y q id -> canon q.
Definition readable_reply (r : reply) : Prop := forall v, r = RValue (Some v) -> canon v.
Fixpoint polite {A} (P : A -> Prop) (t : io A) : Prop :=
  match t with
  | Finished a => P a
  | Ask c k => fair c /\ forall r, readable_reply r -> polite P (k r)
  end.
Lemma polite_bind {A B} (P : A -> Prop) (P' : B -> Prop) t f : polite P t -> (forall a, P a -> polite P' (f a)) -> polite P' (io_bind t f).
Proof.
  induction t as [a|c k IH]; intros H F; [apply F, H|]. destruct H as (H & K). cbn [io_bind polite]. split; [exact H|]. intros r R. apply IH; [apply K, R|exact F].
Qed.
Lemma polite_weaken {A} (P P' : A -> Prop) t : polite P t -> (forall a, P a -> P' a) -> polite P' t.
Proof. induction t as [a|c k IH]; intros H F; [apply F, H|]. destruct H as (H & K). split; [exact H|]. intros r R. apply IH; [apply K, R|exact F]. Qed.

Lemma perform_file c sd : program_file (sd_db sd) -> fair c -> program_file (sd_db (fst (perform c sd))).
Proof.
  intros H (No & Np & Q). destruct c; try congruence; cbn [perform fst]; match goal with |- program_file (sd_db (fst ?t)) => destruct t as [sd' o] eqn:E end; cbn [fst].
  - eapply call_real; [apply keeps_add|exact H|exact E].
  - eapply call_real; [apply keeps_set; eapply Q; reflexivity|exact H|exact E].
  - eapply call_real; [apply keeps_touch|exact H|exact E].
  - eapply call_real; [apply keeps_get|exact H|exact E].
  - eapply call_real; [apply keeps_clear|exact H|exact E].
  - eapply call_real; [apply keeps_get_max|exact H|exact E].
  - eapply call_real; [apply keeps_set_max|exact H|exact E].
Qed.
Lemma perform_readable c sd : program_file (sd_db sd) -> readable_reply (snd (perform c sd)).
Proof.
  intros H v. destruct c; cbn [perform snd]; try match goal with |- reply_of ?f (snd ?t) = _ -> _ => lazymatch f with RValue => fail | _ => destruct (snd t) as [?|?|?]; cbn [reply_of]; discriminate end end; try discriminate.
  unfold get_variable, sd_call. destruct (sd_faults sd) as [|[|] fs]; cbn [snd reply_of]; try discriminate;
  (destruct (tx_get_variable_ok (sd_db sd) name (file_rows _ H)) as [(w & -> & _ & C)|(-> & _)]; cbn [snd reply_of]; [intros [= <-]; exact C|discriminate]).
Qed.

Definition good_vr {A} (P : A -> Prop) (vr : vstore * outcome failure A) : Prop := vars_ok (fst vr) /\ forall v, snd vr = Ok v -> P v.
Lemma polite_then {A B} (P : A -> Prop) (P' : B -> Prop) t f : polite (good_vr P) t ->
  (forall a vars, vars_ok vars -> P a -> polite (good_vr P') (f a vars)) -> polite (good_vr P') (io_then t f).
Proof.
  intros H F. unfold io_then. eapply polite_bind; [exact H|]. intros [vars [a|e|p]] (V & K); cbn [fst snd] in *.
  - apply F; [exact V|apply K; reflexivity].
  - split; [exact V|discriminate].
  - split; [exact V|discriminate].
Qed.
Lemma polite_reload vars name : vars_ok vars -> polite (fun vr => vars_ok (fst vr) /\ forall v, snd vr = Ok (Some v) -> canon v) (reload_io vars name).
Proof.
  intros H. cbn [reload_io polite]. split; [split; [discriminate|split; [discriminate|intros ? ? ?; discriminate]]|]. intros r R. cbn [fst snd].
  destruct r as [| | |[v|]| | | |]; cbn [value_of]; (split; [try exact H|try discriminate]); [apply vars_ok_insert; [exact H|]|intros w [= <-]]; apply R; reflexivity.
Qed.
Lemma polite_variable name p vars : vars_ok vars -> polite (good_vr canon) (variable_io name p vars).
Proof.
  intros H. unfold variable_io. eapply polite_bind with (P := fun vr => vars_ok (fst vr) /\ forall v, snd vr = Ok (Some v) -> canon v).
  - unfold lookup_io. destruct (vs_get vars name) as [v|] eqn:E; [split; [exact H|]|apply polite_reload, H]. cbn [snd]. intros w [= <-]. eapply H, E.
  - intros [vars' o] (V & K). cbn [fst snd] in *. split; [exact V|]. cbn [snd]. destruct o as [[v|]|e|q]; try discriminate. intros w [= <-]. apply K. reflexivity.
Qed.
Section Polite.
  Context (pr : profile) (a : args) (Ha : valid_settings a).
  Let Hpow := exec_power_sound pr a (valid_settings_ok _ Ha).
  Lemma polite_exec n : literals_ok n -> forall vars, vars_ok vars -> polite (good_vr canon) (exec_io pr a n vars).
  Proof.
    induction 1 as [v p C|y p|o p n _ IH|o p l r _ IHl _ IHr|f p ns w _ IH|p q n _ IH]; intros vars H.
    - split; [exact H|]. cbn [snd]. intros w [= <-]. exact C.
    - apply polite_variable, H.
    - cbn [exec_io]. eapply polite_then; [apply IH, H|]. intros v vars1 V C. split; [exact V|]. cbn [snd]. apply (exec_unary_sound pr a _ Hpow o p v C).
    - cbn [exec_io]. eapply polite_then; [apply IHl, H|]. intros v vars1 V C. eapply polite_then; [apply IHr, V|]. intros v2 vars2 V2 C2.
      split; [exact V2|]. cbn [snd]. apply (exec_binary_sound pr a _ Hpow o p v v2 C C2).
    - rewrite fun_io. eapply polite_then with (P := Forall canon).
      + revert vars H. induction ns as [|m ns IHl]; intros vars H; [split; [exact H|]; cbn [snd]; intros v [= <-]; constructor|]. cbn [list_io].
        eapply polite_then; [apply (IH m (or_introl eq_refl)), H|]. intros v vars1 V C. eapply polite_then; [apply (IHl (fun n I => IH n (or_intror I))), V|].
        intros vs vars2 V2 C2. split; [exact V2|]. cbn [snd]. intros l [= <-]. constructor; assumption.
      + intros vs vars1 V C. split; [exact V|]. cbn [snd]. intros v E. destruct (exec_function_sound f p vs) as (K1 & K2); [intros u Hu; rewrite Forall_forall in C; apply C, Hu|].
        destruct vs as [|v0 vs]; [rewrite K2 in E by reflexivity; discriminate E|]. destruct (K1 ltac:(discriminate)) as (v' & E' & C' & _). congruence.
    - apply IH, H.
  Qed.
  Lemma polite_tree t id : literals_ok (st_root t) -> forall vars, vars_ok vars -> polite (good_vr canon) (tree_io pr a t id vars).
  Proof.
    intros L vars H. unfold tree_io. eapply polite_then; [apply polite_exec; [exact L|exact H]|]. intros v vars1 V C. destruct (st_var t) as [y|].
    - cbn [update_io io_bind polite]. split; [split; [discriminate|split; [discriminate|]]|].
      + intros z q k E. injection E as _ <- _. exact C.
      + intros r _. cbn [fst snd]. split; [apply vars_ok_insert; assumption|]. cbn [snd]. destruct (done_of r); try discriminate. intros w [= <-]. exact C.
    - split; [exact V|]. cbn [snd]. intros w [= <-]. exact C.
  Qed.
End Polite.
Lemma polite_touches names id : polite (fun _ => True) (touch_loop_io names id).
Proof.
  induction names as [|y names IH]; [exact I|]. cbn [touch_loop_io touch_io io_bind polite]. split; [split; [discriminate|split; [discriminate|intros ? ? ?; discriminate]]|].
  intros r _. destruct (done_of r); [exact IH|exact I|exact I].
Qed.
Lemma polite_reloads names : forall out touched vars, vars_ok vars -> polite (fun vr => vars_ok (fst vr)) (reload_loop_io names out touched vars).
Proof.
  induction names as [|y names IH]; intros out touched vars H; [exact H|]. cbn [reload_loop_io]. cbv zeta. eapply polite_bind; [apply polite_reload, H|].
  intros [vars' o] (V & _). cbn [fst snd] in *. destruct o as [[v|]|e|p]; [apply IH, V|apply IH, V|exact V|exact V].
Qed.
Lemma polite_purges names : forall vars, vars_ok vars -> polite (fun vr => vars_ok (fst vr)) (purge_loop_io names vars).
Proof.
  induction names as [|y names IH]; intros vars H; [exact H|]. cbn [purge_loop_io purge_io io_bind polite]. split; [split; [discriminate|split; [discriminate|intros ? ? ?; discriminate]]|].
  intros r _. cbn [fst snd]. pose proof (vars_ok_remove vars y H) as V. destruct (done_of r); [apply IH, V|exact V|exact V].
Qed.
Definition good_cmd {A} (avr : args * vstore * outcome failure A) : Prop := valid_settings (fst (fst avr)) /\ vars_ok (snd (fst avr)).
Lemma polite_command pr ord x c arguments a vars : valid_settings a -> vars_ok vars -> polite good_cmd (command_io pr ord x c arguments a vars).
Proof.
  intros A V. assert (Q : forall c0, run_command pr ord x c0 arguments a (mkEnv (Some vars) (Some some_handle)) = run_command pr ord x c0 arguments a (mkEnv (Some vars) (Some some_handle)) ->
    polite good_cmd (let '(a', _, r) := run_command pr ord x c0 arguments a (mkEnv (Some vars) (Some some_handle)) in Finished (a', vars, r))).
  { intros c0 _. destruct (run_command _ _ _ _ _ _ _) as [[a' s'] r] eqn:E. split; [eapply command_settings; eauto|exact V]. }
  destruct c; try (apply Q; reflexivity); clear Q; cbn [command_io].
  - destruct (tokenize_variable_list _) as [l|e|p]; [|split; assumption..]. eapply polite_bind; [apply polite_reloads, V|]. intros [vars' o] V'. split; [exact A|exact V'].
  - destruct (tokenize_variable_list _) as [l|e|p]; [|split; assumption..]. eapply polite_bind; [apply polite_purges, V|]. intros [vars' o] V'. split; [exact A|exact V'].
  - destruct (tokenize_int_list _ _ _) as [[|i [|j l]]|e|p]; try (split; assumption).
    + cbn [polite]. split; [split; [discriminate|split; [discriminate|intros ? ? ?; discriminate]]|]. intros r _. split; assumption.
    + destruct (validate_max_history_size _); [split; assumption|]. cbn [polite]. split; [split; [discriminate|split; [discriminate|intros ? ? ?; discriminate]]|]. intros r _. split; assumption.
Qed.
Lemma polite_body pr ord x input id a vars : valid_settings a -> vars_ok vars -> polite good_cmd (body_io pr ord x input id a vars).
Proof.
  intros A V. unfold body_io. destruct (tokenize input (a_radix a)) as [[ts|name arguments]|e|p] eqn:T; [| |split; assumption..].
  - eapply polite_bind; [apply polite_touches|]. intros [u|e|p] _; [|split; assumption..]. destruct ts as [|t0 ts']; [split; assumption|].
    destruct (syntax_tree_new (t0 :: ts')) as [t|e|p] eqn:P; [|split; assumption..].
    eapply polite_bind; [apply polite_tree; [exact A|exact (typed_literals input (a_radix a) _ t (proj1 A) T P)|exact V]|]. intros [vars' o] (V' & _). split; assumption.
  - eapply polite_bind.
    + unfold execute_io. destruct (assoc _ _) as [c|]; [apply polite_command; assumption|split; assumption].
    + intros [[a' vars'] o] G. destruct o as [[m tv]|e|p]; [|exact G..]. eapply polite_bind; [apply polite_touches|]. intros o _. exact G.
Qed.
(** The scrollback after the line. *)
Definition submitted_line (h h' : input_history) : Prop :=
  h' = h \/ exists line, current_line (E := runtime_error) h = Ok line /\ h' = mkIH (ih_internal h ++ [line]) (ih_db h) [Some []] 0 (ih_exhausted h).
Definition good_answer (h : input_history) (ans : line_answer) : Prop :=
  let '(a', h', vars', _) := ans in valid_settings a' /\ vars_ok vars' /\ submitted_line h h'.
Lemma polite_line pr ord x input a h vars : valid_settings a -> vars_ok vars -> polite (good_answer h) (line_io pr ord x input a h vars).
Proof.
  intros A V. unfold line_io. destruct (current_line h) as [line|e|p] eqn:L; [|split; [exact A|]; split; [exact V|]; left; reflexivity..].
  cbv zeta. cbn [polite]. split; [split; [discriminate|split; [discriminate|intros ? ? ?; discriminate]]|]. intros r _.
  assert (S : submitted_line h (mkIH (ih_internal h ++ [line]) (ih_db h) [Some []] 0 (ih_exhausted h))) by (right; eauto).
  destruct (id_of r) as [id|e|p]; [|split; [exact A|]; split; [exact V|exact S]..].
  eapply polite_bind; [apply polite_body; assumption|]. intros [[a' vars'] o] (A' & V'). split; [exact A'|]. split; [exact V'|exact S].
Qed.

(** ** The room *)
Definition sound_seat (d : database) (s : seat) : Prop :=
  match s with
  | Resting u e => (forall sd, u_db u = Some sd -> program_file d) /\ (e = Running -> ui_good (with_file d u))
  | Working u t => u_db u <> None /\ program_file d /\ valid_settings (u_args u) /\ vars_ok (u_vars u) /\ polite (good_answer (u_inputs u)) t
  end.
Definition sound_room (w : room) : Prop := made_file (r_file w) /\ forall i s, r_seat w i = Some s -> sound_seat (r_file w) s.
Lemma good_parts d u : valid_settings (u_args u) -> vars_ok (u_vars u) -> (forall sd, u_db u = Some sd -> program_file d) -> ui_good (with_file d u).
Proof.
  intros A V P. split; [exact A|]. split; [split|].
  - intros m y v E. cbn in E. injection E as <-. apply V.
  - intros sd E. cbn in E. destruct (u_db u) as [sd0|]; [|discriminate E]. injection E as <-. apply file_rows, (P sd0 eq_refl).
  - intros sd E. cbn in E. destruct (u_db u) as [sd0|]; [|discriminate E]. injection E as <-. exact (P sd0 eq_refl).
Qed.
Lemma parts_of_good u : ui_good u -> valid_settings (u_args u) /\ vars_ok (u_vars u).
Proof. intros (A & (B & _) & _). split; [exact A|]. intros y v. apply B. reflexivity. Qed.
Lemma sound_seat_file d d' s : (program_file d -> program_file d') -> sound_seat d s -> sound_seat d' s.
Proof.
  intros P. destruct s as [u e|u t]; cbn [sound_seat].
  - intros (P1 & G). assert (P' : forall sd, u_db u = Some sd -> program_file d') by (intros sd E; apply P, (P1 sd E)). split; [exact P'|]. intros R. apply (good_with_file' d); [apply G, R|exact P'].
  - intros (N & P1 & K). auto.
Qed.
Lemma start_parts pr tm u : ui_good u -> ui_good (fst (fst (start_line pr tm u))) /\ u_db (fst (fst (start_line pr tm u))) = u_db u.
Proof. intros G. split; [apply start_line_good, G|apply start_line_db]. Qed.
Lemma answer_sound pr tm u ans d : u_db u <> None -> (forall sd, u_db u = Some sd -> sd_db sd = d) -> program_file d -> good_answer (u_inputs u) ans ->
  sound_seat d (fst (answer_line pr tm u ans)).
Proof.
  intros N D P. destruct ans as [[[a' h'] vars'] r]. intros (A & V & _). unfold answer_line.
  assert (G : forall l c, ui_good (mkUi a' vars' (u_db u) h' l c)).
  { intros l c. destruct (u_db u) as [sd|] eqn:E; [|destruct N; reflexivity].
    pose proof (good_parts d (mkUi a' vars' (Some sd) h' l c) A V ltac:(intros; exact P)) as G. rewrite (file_with _ sd) in G; [exact G|reflexivity|]. symmetry. apply D. reflexivity. }
  destruct (render r) as [text|e|p]; cbn [fst].
  - match goal with |- context [start_line pr tm ?u0] => pose proof (start_parts pr tm u0 (G _ _)) as (G1 & Db); destruct (start_line pr tm u0) as [[u2 out] st] end.
    cbn [fst] in *. cbn [sound_seat]. split; [intros; exact P|]. intros _. destruct (u_db u) as [sd|] eqn:E; [|destruct N; reflexivity]. rewrite (file_with _ sd); [exact G1|exact Db|]. symmetry. apply D. reflexivity.
  - cbn. split; [intros; exact P|discriminate].
  - cbn. split; [intros; exact P|discriminate].
Qed.
Lemma go_on_sound pr tm u t d : u_db u <> None -> (forall sd, u_db u = Some sd -> sd_db sd = d) -> program_file d -> valid_settings (u_args u) -> vars_ok (u_vars u) ->
  polite (good_answer (u_inputs u)) t -> sound_seat d (fst (go_on pr tm u t)).
Proof.
  intros N D P A V Po. destruct t as [ans|c k]; cbn [go_on]; [apply answer_sound; assumption|]. cbn [fst sound_seat]. auto.
Qed.
Lemma sound_turn pr ord x tm tn w : (forall i n, iterates (ord i n)) -> proper_turn tn -> sound_room w -> sound_room (fst (room_step pr ord x tm tn w)).
Proof.
  intros Ho Pm (M & S). assert (Oth : forall d s i, (program_file (r_file w) -> program_file d) -> sound_seat d s -> forall j s', seated (r_seat w) i s j = Some s' -> sound_seat d s').
  { intros d s i P Ss j s' E. destruct (Nat.eq_dec j i) as [->|N]; [rewrite seated_same in E; injection E as <-; exact Ss|].
    rewrite seated_other in E by exact N. eapply sound_seat_file; [exact P|]. eapply S, E. }
  destruct tn as [i a wanted|i ev|i]; cbn [room_step].
  - destruct (r_seat w i) eqn:Sk; [split; assumption|]. cbn [proper_turn] in Pm. destruct wanted as [faults|].
    + destruct (sd_open faults (r_file w)) as [file o] eqn:O. destruct (open_made _ _ _ _ M O) as [(_ & -> & ->)|(_ & sd & -> & Ed & Pf & _)]; [split; assumption|].
      pose proof (start_good pr (tm i) a (Some sd) Pm ltac:(intros s [= <-]; rewrite Ed; exact Pf)) as G. pose proof (start_db pr (tm i) a (Some sd)) as D.
      destruct (interactive_start pr (tm i) a (Some sd)) as [[u out] st]. cbn [fst] in *. split; [apply program_made; exact Pf|]. cbn [r_file r_seat]. apply Oth; [auto|].
      split; [intros; exact Pf|]. intros _. rewrite (file_with u sd) by (auto; congruence). exact G.
    + pose proof (start_good pr (tm i) a None Pm ltac:(discriminate)) as G. pose proof (start_db pr (tm i) a None) as D.
      destruct (interactive_start pr (tm i) a None) as [[u out] st]. cbn [fst] in *. split; [exact M|]. cbn [r_file r_seat]. apply Oth; [auto|].
      split; [intros sd X; congruence|]. intros _. rewrite nofile_with by exact D. exact G.
  - destruct (r_seat w i) as [[u e|u t]|] eqn:Sk; [|split; assumption..]. destruct e; try (split; assumption).
    destruct (S i _ Sk) as (S1 & S2). specialize (S2 eq_refl).
    assert (Ui : sound_room (fst (let '(u', out, st) := ui_step pr (ord i) x (tm i) ev (with_file (r_file w) u) in
              (mkRoom (file_of (r_file w) u') (seated (r_seat w) i (Resting u' (ending_of st))), out)))).
    { pose proof (ui_step_good pr (ord i) x (tm i) ev _ (Ho i) S2) as G. pose proof (ui_step_none pr (ord i) x (tm i) ev _ (Ho i) S2) as Nn. rewrite with_file_db in Nn.
      destruct (ui_step pr (ord i) x (tm i) ev (with_file (r_file w) u)) as [[u' out] st]. cbn [fst] in *.
      assert (Pk : program_file (r_file w) -> program_file (file_of (r_file w) u')) by (intros P; unfold file_of; destruct (u_db u') as [sd|] eqn:X; [apply (proj2 (proj2 G)); exact X|exact P]).
      split; [unfold file_of; cbn [r_file]; destruct (u_db u') as [sd|] eqn:X; [apply program_made, (proj2 (proj2 G)); exact X|exact M]|]. cbn [r_file r_seat]. apply Oth; [exact Pk|].
      split; [|intros _; rewrite with_file_of; exact G]. intros sd X. unfold file_of. rewrite X. apply (proj2 (proj2 G)). exact X. }
    destruct (enter ev); [|exact Ui]. destruct (u_db u) as [sd|] eqn:Ed; [|exact Ui]. clear Ui.
    assert (Sb : sound_seat (r_file w) (fst (begin_line pr (ord i) x (tm i) (with_file (r_file w) u)))).
    { set (v := with_file (r_file w) u) in *. destruct (parts_of_good v S2) as (A & V).
      assert (Dv : u_db v = Some (mkSD (r_file w) (sd_pos sd) (sd_faults sd))) by (unfold v; cbn; rewrite Ed; reflexivity).
      assert (Rs : forall e, e <> Running -> sound_seat (r_file w) (Resting v e)) by (intros e N; split; [intros; eapply S1; reflexivity|intros ->; destruct N; reflexivity]).
      unfold begin_line. destruct (display _ _ _ _ _) as [[l1 out1]|e|p]; cbn [fst]; [|apply Rs; discriminate..].
      destruct (current_line (u_inputs v)) as [input|e|p]; cbn [fst]; [|apply Rs; discriminate..].
      match goal with |- context [go_on pr (tm i) v ?t] => assert (K : sound_seat (r_file w) (fst (go_on pr (tm i) v t))) end.
      { apply go_on_sound; [rewrite Dv; discriminate|rewrite Dv; intros s [= <-]; reflexivity|eapply S1; reflexivity|exact A|exact V|apply polite_line; assumption]. }
      destruct (go_on pr (tm i) v _) as [s out]. exact K. }
    destruct (begin_line _ _ _ _ _) as [s out]. cbn [fst] in *. split; [exact M|]. cbn [r_file r_seat]. apply Oth; [auto|exact Sb].
  - destruct (r_seat w i) as [[u e|u t]|] eqn:Sk; [split; assumption| |split; assumption]. destruct (S i _ Sk) as (N & P & A & V & Po).
    destruct t as [ans|c k]; [split; assumption|]. destruct (u_db u) as [sd|] eqn:Ed; [|destruct N; reflexivity]. destruct Po as (Fc & K).
    pose proof (perform_file c (mkSD (r_file w) (sd_pos sd) (sd_faults sd)) P Fc) as P'. pose proof (perform_readable c (mkSD (r_file w) (sd_pos sd) (sd_faults sd)) P) as R.
    destruct (perform c _) as [sd' r]. cbn [fst snd] in P', R.
    pose proof (go_on_sound pr (tm i) (with_db u (Some sd')) (k r) (sd_db sd') ltac:(discriminate) ltac:(intros s [= <-]; reflexivity) P' A V (K r R)) as Sg.
    destruct (go_on _ _ _ _) as [s out]. cbn [fst] in *. split; [apply program_made, P'|]. cbn [r_file r_seat]. apply Oth; [auto|exact Sg].
Qed.
Lemma sound_turns pr ord x tm turns : (forall i n, iterates (ord i n)) -> forall w, Forall proper_turn turns -> sound_room w -> sound_room (room_run pr ord x tm turns w).
Proof.
  intros Ho. induction turns as [|tn turns IH]; intros w P S; [exact S|]. cbn [room_run]. inversion P; subst. apply IH; [assumption|]. apply sound_turn; assumption.
Qed.
Lemma sound_nobody d : made_file d -> sound_room (empty_room d).
Proof. intros M. split; [exact M|]. intros i s [=]. Qed.
