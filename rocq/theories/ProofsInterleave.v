(** ProofsInterleave.v -- interleaved calls: a line nobody interrupts is [calculate]. *)
From Verif Require Import Base Position Num TokenTypes Errors Token Operations SavedData Variables InputHistory
  SyntaxTree Commands Calculate Editor Sessions Main Io Together Interleave ProofsParse3.
From Coq Require Import String Lia.
Local Open Scope nat_scope.
Local Open Scope list_scope.

Lemma alone_bind {A B} (t : io A) (f : A -> io B) : forall sd, alone (io_bind t f) sd = alone (f (snd (alone t sd))) (fst (alone t sd)).
Proof.
  induction t as [a|c k IH]; intros sd; [reflexivity|]. cbn [io_bind alone]. destruct (perform c sd) as [sd' r]. apply IH.
Qed.
Definition both (vars : vstore) (sd : saved_data) : env := mkEnv (Some vars) (Some sd).
(** The result of a computation on the variables, as the model of the functions gives it. *)
Definition env_of {A} (r : saved_data * (vstore * outcome failure A)) : env * outcome failure A :=
  (both (fst (snd r)) (fst r), snd (snd r)).
Definition rt_of {A} (r : saved_data * (vstore * outcome runtime_error A)) : vstore * option saved_data * outcome runtime_error A :=
  (fst (snd r), Some (fst r), snd (snd r)).

Lemma done_reply o : done_of (reply_of (fun _ : unit => RDone) o) = o.
Proof. destruct o as [[]|e|p]; reflexivity. Qed.
Lemma id_reply o : id_of (reply_of RId o) = o.
Proof. destruct o; reflexivity. Qed.
Lemma value_reply o : value_of (reply_of RValue o) = o.
Proof. destruct o; reflexivity. Qed.
Lemma max_reply o : max_of (reply_of RMax o) = o.
Proof. destruct o; reflexivity. Qed.

Lemma update_alone vars name value id sd : vs_update vars name value (Some id) (Some sd) = rt_of (alone (update_io vars name value id) sd).
Proof. unfold vs_update, db_result, update_io, rt_of. cbn [alone perform]. destruct (set_variable name value id sd) as [sd' o]. cbn [fst snd]. rewrite done_reply. reflexivity. Qed.
Lemma touch_alone vars name id sd : vs_touch vars name (Some id) (Some sd) =
  (vars, Some (fst (alone (touch_io name id) sd)), snd (alone (touch_io name id) sd)).
Proof. unfold vs_touch, db_result, touch_io. cbn [alone perform]. destruct (touch_variable name id sd) as [sd' o]. cbn [fst snd]. rewrite done_reply. reflexivity. Qed.
Lemma reload_alone vars name sd : vs_reload vars name sd =
  (fst (snd (alone (reload_io vars name) sd)), fst (alone (reload_io vars name) sd), snd (snd (alone (reload_io vars name) sd))).
Proof. unfold vs_reload, reload_io. cbn [alone perform]. destruct (get_variable name sd) as [sd' o]. cbn [fst snd]. rewrite value_reply. destruct o as [[v|]|e|p]; reflexivity. Qed.
Lemma lookup_alone vars name sd : vs_lookup vars name (Some sd) = rt_of (alone (lookup_io vars name) sd).
Proof.
  unfold vs_lookup, lookup_io. destruct (vs_get vars name) as [v|]; [reflexivity|]. rewrite reload_alone. reflexivity.
Qed.
Lemma purge_alone vars name sd : vs_purge vars name (Some sd) = rt_of (alone (purge_io vars name) sd).
Proof. unfold vs_purge, purge_io, rt_of. cbn [alone perform]. destruct (clear_variable name sd) as [sd' o]. cbn [fst snd]. rewrite done_reply. reflexivity. Qed.

Lemma then_alone {A B} (t : io (vstore * outcome failure A)) (f : A -> vstore -> io (vstore * outcome failure B)) g sd :
  (forall a vars sd, g a (both vars sd) = env_of (alone (f a vars) sd)) ->
  then_do (env_of (alone t sd)) g = env_of (alone (io_then t f) sd).
Proof.
  intros H. unfold io_then. rewrite alone_bind. destruct (alone t sd) as [sd' [vars' o]]. unfold env_of at 1. cbn [fst snd then_do].
  destruct o as [a|e|p]; [apply H|reflexivity|reflexivity].
Qed.
Lemma variable_alone name p vars sd : exec_variable name p (both vars sd) = env_of (alone (variable_io name p vars) sd).
Proof.
  unfold exec_variable, variable_io, both. cbn [e_vars e_db]. rewrite lookup_alone, alone_bind. destruct (alone (lookup_io vars name) sd) as [sd' [vars' o]]. reflexivity.
Qed.
Section NodeInd.
  Variable P : node -> Prop.
  Hypothesis Hnum : forall v p, P (NNum v p).
  Hypothesis Hvar : forall x p, P (NVar x p).
  Hypothesis Hun : forall o p n, P n -> P (NUn o p n).
  Hypothesis Hbin : forall o p a b, P a -> P b -> P (NBin o p a b).
  Hypothesis Hfun : forall f p ns q, (forall n, In n ns -> P n) -> P (NFun f p ns q).
  Hypothesis Hparen : forall p q n, P n -> P (NParen p q n).
  Fixpoint node_in (n : node) : P n :=
    match n with
    | NNum v p => Hnum v p
    | NVar x p => Hvar x p
    | NUn o p m => Hun o p m (node_in m)
    | NBin o p a b => Hbin o p a b (node_in a) (node_in b)
    | NFun f p ns q =>
        Hfun f p ns q ((fix all (l : list node) : forall m, In m l -> P m :=
          match l with
          | [] => fun m H => match H with end
          | m0 :: l' => fun m H => match H with or_introl E => eq_ind m0 P (node_in m0) m E | or_intror H' => all l' m H' end
          end) ns)
    | NParen p q m => Hparen p q m (node_in m)
    end.
End NodeInd.
Definition list_io (pr : profile) (a : args) :=
  fix list_io (l : list node) (vars0 : vstore) : io (vstore * outcome failure (list Q)) :=
    match l with
    | [] => Finished (vars0, Ok [])
    | m :: l' =>
        io_then (exec_io pr a m vars0) (fun v vars1 =>
        io_then (list_io l' vars1) (fun vs vars2 => Finished (vars2, Ok (v :: vs))))
    end.
Lemma fun_io pr a f p ns q vars : exec_io pr a (NFun f p ns q) vars =
  io_then (list_io pr a ns vars) (fun vs vars1 => Finished (vars1, exec_function f p vs)).
Proof. reflexivity. Qed.
Lemma exec_alone pr a n : forall vars sd, exec pr a n (both vars sd) = env_of (alone (exec_io pr a n vars) sd).
Proof.
  induction n as [v p|x p|o p n IH|o p n1 n2 IH1 IH2|f p ns q IH|p q n IH] using node_in; intros vars sd.
  - reflexivity.
  - apply variable_alone.
  - cbn [exec exec_io]. rewrite IH. apply then_alone. reflexivity.
  - cbn [exec exec_io]. rewrite IH1. apply then_alone. intros v1 vars1 sd1. rewrite IH2. apply then_alone. reflexivity.
  - rewrite exec_fun, fun_io.
    assert (L : forall vars sd, exec_list pr a ns (both vars sd) = env_of (alone (list_io pr a ns vars) sd)).
    { clear vars sd. induction ns as [|m ns IHl]; intros vars sd; [reflexivity|]. cbn [exec_list list_io]. rewrite (IH m (or_introl eq_refl)).
      apply then_alone. intros v vars1 sd1. rewrite (IHl (fun n I => IH n (or_intror I))). apply then_alone. reflexivity. }
    rewrite L. apply then_alone. reflexivity.
  - apply IH.
Qed.
Lemma tree_alone pr a t id vars sd : tree_execute pr a t (Some id) (both vars sd) = env_of (alone (tree_io pr a t id vars) sd).
Proof.
  unfold tree_execute, tree_io. rewrite exec_alone. apply then_alone. intros v vars1 sd1. destruct (st_var t) as [y|]; [|reflexivity].
  cbn [both e_vars e_db]. rewrite update_alone, alone_bind. destruct (alone (update_io _ _ _ _) sd1) as [sd2 [vars2 o]]. reflexivity.
Qed.

Lemma reload_loop_alone names : forall out touched vars sd, reload_loop names out touched vars sd =
  (fst (snd (alone (reload_loop_io names out touched vars) sd)), fst (alone (reload_loop_io names out touched vars) sd),
   snd (snd (alone (reload_loop_io names out touched vars) sd))).
Proof.
  induction names as [|y names IH]; intros out touched vars sd; [reflexivity|]. cbn [reload_loop reload_loop_io]. cbv zeta. rewrite reload_alone, alone_bind.
  destruct (alone (reload_io vars y) sd) as [sd' [vars' o]]. cbn [fst snd]. destruct o as [[v|]|e|p]; [apply IH|apply IH|reflexivity|reflexivity].
Qed.
Lemma purge_loop_alone names : forall vars sd, purge_loop names vars (Some sd) = rt_of (alone (purge_loop_io names vars) sd).
Proof.
  induction names as [|y names IH]; intros vars sd; [reflexivity|]. cbn [purge_loop purge_loop_io]. rewrite purge_alone, alone_bind. unfold rt_of at 1.
  destruct (alone (purge_io vars y) sd) as [sd' [vars' o]]. cbn [fst snd]. destruct o as [[]|e|p]; [apply IH|reflexivity|reflexivity].
Qed.
Lemma touch_loop_alone names id vars : forall sd, touch_loop names (Some id) vars (Some sd) =
  (vars, Some (fst (alone (touch_loop_io names id) sd)), snd (alone (touch_loop_io names id) sd)).
Proof.
  induction names as [|y names IH]; intros sd; [reflexivity|]. cbn [touch_loop touch_loop_io]. rewrite touch_alone, alone_bind.
  destruct (alone (touch_io y id) sd) as [sd' o]. cbn [fst snd]. destruct o as [[]|e|p]; [apply IH|reflexivity|reflexivity].
Qed.
Lemma touch_all_alone names id vars sd : touch_all names (Some id) (both vars sd) =
  (both vars (fst (alone (touch_loop_io names id) sd)), lift_rt (snd (alone (touch_loop_io names id) sd))).
Proof. unfold touch_all, both. cbn [e_vars e_db]. rewrite touch_loop_alone. reflexivity. Qed.

Definition cmd_of {A} (r : saved_data * (args * vstore * outcome failure A)) : args * env * outcome failure A :=
  (fst (fst (snd r)), both (snd (fst (snd r))) (fst r), snd (snd r)).
Lemma quiet_command pr ord x c arguments a vars sd sd2 :
  match c with CReloadVar | CPurgeVar | CHistCap => False | _ => True end ->
  run_command pr ord x c arguments a (both vars sd) = (fst (fst (run_command pr ord x c arguments a (both vars sd2))), both vars sd, snd (run_command pr ord x c arguments a (both vars sd2))).
Proof.
  intros Hc. destruct c; try destruct Hc; cbn [run_command].
  - unfold exec_help, cmd_done. destruct (ptrim arguments) as [n|e|p]; [|reflexivity..]. destruct (pd_value n); [reflexivity|]. destruct (assoc _ _); reflexivity.
  - unfold exec_bool_setting, cmd_done. repeat match goal with |- context [match ?t with _ => _ end] => destruct t end; reflexivity.
  - unfold exec_radix, cmd_done. repeat match goal with |- context [match ?t with _ => _ end] => destruct t end; reflexivity.
  - unfold exec_converttoradix, cmd_done. repeat match goal with |- context [match ?t with _ => _ end] => destruct t end; reflexivity.
  - unfold exec_bool_setting, cmd_done. repeat match goal with |- context [match ?t with _ => _ end] => destruct t end; reflexivity.
  - unfold exec_bool_setting, cmd_done. repeat match goal with |- context [match ?t with _ => _ end] => destruct t end; reflexivity.
  - unfold exec_precision, cmd_done. cbv zeta. destruct (tokenize_int_list pr (pd_value arguments) 10) as [[|i [|j [|k l]]]|e|p]; try reflexivity;
    (destruct (check_precision _ _ _) as [[? ?]|e|p]; reflexivity).
Qed.
Lemma command_alone pr ord x c arguments a vars sd : run_command pr ord x c arguments a (both vars sd) = cmd_of (alone (command_io pr ord x c arguments a vars) sd).
Proof.
  destruct c; try (match goal with |- run_command _ _ _ ?c _ _ _ = _ => rewrite (quiet_command pr ord x c arguments a vars sd some_handle Logic.I) end; unfold command_io; fold (both vars some_handle);
    destruct (run_command _ _ _ _ _ _ _) as [[a' s'] r]; reflexivity).
  - cbn [run_command]. unfold command_io, exec_reloadvar. destruct (tokenize_variable_list _) as [l|e|p]; [|reflexivity..]. cbn [both e_vars e_db].
    rewrite reload_loop_alone, alone_bind. destruct (alone (reload_loop_io _ _ _ _) sd) as [sd' [vars' o]]. reflexivity.
  - cbn [run_command]. unfold command_io, exec_purgevar. destruct (tokenize_variable_list _) as [l|e|p]; [|reflexivity..]. cbn [both e_vars e_db].
    rewrite purge_loop_alone, alone_bind. destruct (alone (purge_loop_io _ _) sd) as [sd' [vars' o]]. reflexivity.
  - cbn [run_command]. unfold command_io, exec_histcap. destruct (tokenize_int_list _ _ _) as [[|i [|j l]]|e|p]; try reflexivity.
    + cbn [both e_vars e_db alone perform]. destruct (get_max_history_size sd) as [sd' o]. cbn [fst snd]. rewrite max_reply. reflexivity.
    + destruct (validate_max_history_size _); [reflexivity|]. cbn [both e_vars e_db alone perform]. destruct (set_max_history_size _ sd) as [sd' o]. cbn [fst snd]. rewrite done_reply. reflexivity.
Qed.
Lemma execute_alone pr ord x name arguments a vars sd :
  execute_command pr ord x name arguments a (both vars sd) = cmd_of (alone (execute_io pr ord x name arguments a vars) sd).
Proof. unfold execute_command, execute_io. destruct (assoc _ _) as [c|]; [apply command_alone|reflexivity]. Qed.
Lemma body_alone pr ord x input id a vars sd :
  calculate_body pr ord x input (Some id) a (both vars sd) = cmd_of (alone (body_io pr ord x input id a vars) sd).
Proof.
  unfold calculate_body, body_io. destruct (tokenize input (a_radix a)) as [[ts|name arguments]|e|p]; [| |reflexivity..].
  - rewrite touch_all_alone, alone_bind. destruct (alone (touch_loop_io _ _) sd) as [sd1 o]. cbn [fst snd lift_rt]. destruct o as [[]|e|p]; cbn [lift_rt]; [|reflexivity..].
    destruct ts as [|t0 ts]; [reflexivity|]. destruct (syntax_tree_new _) as [t|e|p]; [|reflexivity..]. rewrite tree_alone, alone_bind.
    destruct (alone (tree_io _ _ _ _ _) sd1) as [sd2 [vars2 o]]. reflexivity.
  - rewrite execute_alone, alone_bind. destruct (alone (execute_io _ _ _ _ _ _ _) sd) as [sd1 [[a1 vars1] o]]. unfold cmd_of at 1. cbn [fst snd].
    destruct o as [[m tv]|e|p]; [|reflexivity..]. rewrite touch_all_alone, alone_bind. destruct (alone (touch_loop_io _ _) sd1) as [sd2 o]. reflexivity.
Qed.
Definition session_from (r : saved_data * line_answer) : session * outcome failure str :=
  let '(sd, (a, h, vars, o)) := r in (mkSession a (Some h) (both vars sd), o).
(** A line nobody interrupts. *)
Lemma line_alone pr ord x input a h vars sd :
  calculate pr ord x input (mkSession a (Some h) (both vars sd)) = session_from (alone (line_io pr ord x input a h vars) sd).
Proof.
  unfold calculate, line_io. cbn [s_inputs s_env s_args both e_vars e_db]. unfold input_finished. destruct (current_line h) as [line|e|p]; [|reflexivity..]. cbv zeta.
  cbn [alone perform]. destruct (add_to_input_history line sd) as [sd' o]. cbn [fst snd]. rewrite id_reply. destruct o as [id|e|p]; [|reflexivity..].
  fold (both vars sd'). rewrite body_alone, alone_bind. destruct (alone (body_io _ _ _ _ _ _ _) sd') as [sd2 [[a2 vars2] o]]. reflexivity.
Qed.
