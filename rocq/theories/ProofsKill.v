(** ProofsKill.v -- two runs from the same state, one with a working database, one with failing calls: the same until a call fails,
    and then nothing more happens. *)
From Verif Require Import Base Position Num TokenTypes Errors Token SavedData Variables InputHistory
  SyntaxTree Commands Calculate Editor Main Kill SpecEval SpecHistory SpecCalc SpecIo.
From Verif Require Import ProofsEval ProofsCalc4 ProofsCalm ProofsIo.
From Coq Require Import String Lia.
Local Open Scope nat_scope.
Local Open Scope list_scope.

Definition twin (o oF : option saved_data) : Prop :=
  match o, oF with
  | None, None => True
  | Some sd, Some sdF => calm sd /\ sd_db sdF = sd_db sd /\ sd_pos sdF = sd_pos sd
  | _, _ => False
  end.
Definition worked (o o' : option saved_data) : Prop :=
  match o, o' with
  | None, None => True
  | Some sd, Some sd' => all_worked (sd_faults sd) (sd_faults sd')
  | _, _ => False
  end.
Definition failed (o o' : option saved_data) : Prop :=
  match o, o' with Some sd, Some sd' => last_failed (sd_faults sd) (sd_faults sd') | _, _ => False end.
Lemma wk_refl o : worked o o.
Proof. destruct o; [apply worked_refl|exact I]. Qed.
Lemma wk_trans o1 o2 o3 : worked o1 o2 -> worked o2 o3 -> worked o1 o3.
Proof. destruct o1, o2, o3; cbn; try tauto. apply worked_trans. Qed.
Lemma wk_failed o1 o2 o3 : worked o1 o2 -> failed o2 o3 -> failed o1 o3.
Proof. destruct o1, o2, o3; cbn; try tauto. apply worked_failed. Qed.

Definition lock {X E A} (bad : E) (oF : option saved_data) (p pF : X * option saved_data * outcome E A) : Prop :=
  (fst (fst pF) = fst (fst p) /\ twin (snd (fst p)) (snd (fst pF)) /\ worked oF (snd (fst pF)) /\ snd pF = snd p) \/
  (failed oF (snd (fst pF)) /\ snd pF = Err bad).
Ltac open_lock L := unfold lock in L; cbn [fst snd] in L.

Lemma call_lock {A} (m : tx A) sd sdF : twin (Some sd) (Some sdF) ->
  lock SqliteError (Some sdF) (tt, Some (fst (sd_call m sd)), snd (sd_call m sd)) (tt, Some (fst (sd_call m sdF)), snd (sd_call m sdF)).
Proof.
  intros (C & D & P). destruct (sd_call m sd) as [sd' o] eqn:E. destruct (calm_call _ _ _ _ C E) as (C' & K). cbn [fst snd].
  assert (P' : sd_pos sd' = sd_pos sd).
  { unfold sd_call in E. destruct (sd_faults sd) as [|[|] fs]; [| |]; try (destruct (m (sd_db sd)) as [[a d']|e|p]); apply pair_equal_spec in E as [<- _]; reflexivity. }
  unfold sd_call. destruct (sd_faults sdF) as [|[|] fs] eqn:F.
  - left. rewrite D, P. destruct (m (sd_db sd)) as [[a d']|e|p]; destruct K as (-> & K); cbn [fst snd twin worked sd_db sd_pos sd_faults]; (repeat split; try assumption; try congruence); rewrite F; apply worked_refl.
  - right. split; [|reflexivity]. exists 0. cbn [sd_faults fst skipn]. rewrite F. split; [reflexivity|]. split; [intros []|reflexivity].
  - left. rewrite D, P. destruct (m (sd_db sd)) as [[a d']|e|p]; destruct K as (-> & K); cbn [fst snd twin worked sd_db sd_pos sd_faults]; (repeat split; try assumption; try congruence); rewrite F; exists 1; split; [reflexivity| |reflexivity| |reflexivity|]; intros [X|[]]; discriminate X.
Qed.
(** the form in which it is used *)
Lemma call_cases {A} (m : tx A) sd sdF sd' o sdF' oF : twin (Some sd) (Some sdF) -> sd_call m sd = (sd', o) -> sd_call m sdF = (sdF', oF) ->
  (twin (Some sd') (Some sdF') /\ worked (Some sdF) (Some sdF') /\ oF = o) \/ (failed (Some sdF) (Some sdF') /\ oF = Err SqliteError).
Proof. intros T E EF. pose proof (call_lock m _ _ T) as L. rewrite E, EF in L. open_lock L. tauto. Qed.

Lemma prev_cases sd sdF sd' o sdF' oF : twin (Some sd) (Some sdF) -> get_prev_input_history sd = (sd', o) -> get_prev_input_history sdF = (sdF', oF) ->
  (twin (Some sd') (Some sdF') /\ worked (Some sdF) (Some sdF') /\ oF = o) \/ (failed (Some sdF) (Some sdF') /\ oF = Err SqliteError).
Proof.
  intros T. unfold get_prev_input_history. pose proof T as (_ & _ & P). rewrite P. destruct (sd_pos sd) as [i|].
  2:{ intros E EF. apply pair_equal_spec in E as [<- <-], EF as [<- <-]. left. split; [exact T|]. split; [apply wk_refl|reflexivity]. }
  set (m := fun d : database => Ok (find_hist (d_hist d) i, d)). destruct (sd_call m sd) as [s1 o1] eqn:E1. destruct (sd_call m sdF) as [s2 o2] eqn:E2.
  destruct (call_cases _ _ _ _ _ _ _ T E1 E2) as [(T' & W & ->)|(Fl & ->)].
  - destruct T' as (C' & D' & P'). destruct o1 as [[r|]|e|p]; intros E EF; apply pair_equal_spec in E as [<- <-], EF as [<- <-]; left; cbn; auto.
  - intros _ EF. apply pair_equal_spec in EF as [<- <-]. right. auto.
Qed.

Ltac pairs := repeat match goal with H : (_, _) = (_, _) |- _ => apply pair_equal_spec in H as [? ?] end; subst.

Lemma finished_lock h o oF : twin o oF -> lock SqliteError oF (input_finished h o) (input_finished h oF).
Proof.
  intros T. unfold input_finished. destruct (current_line h) as [l|e|p]; [|left; auto using wk_refl..].
  destruct o as [sd|], oF as [sdF|]; try contradiction; [|left; auto using wk_refl].
  unfold add_to_input_history. destruct (sd_call (tx_add l) sd) as [s1 o1] eqn:E1. destruct (sd_call (tx_add l) sdF) as [s2 o2] eqn:E2.
  destruct (call_cases _ _ _ _ _ _ _ T E1 E2) as [(T' & W & ->)|(Fl & ->)]; [destruct o1; left; auto|right; auto].
Qed.
Lemma earlier_lock h o oF : twin o oF -> lock SqliteError oF (try_earlier h o) (try_earlier h oF).
Proof.
  intros T. unfold try_earlier. destruct (Nat.leb _ _); [|left; auto using wk_refl]. destruct (ih_exhausted h); [left; auto using wk_refl|].
  destruct o as [sd|], oF as [sdF|]; try contradiction; [|left; auto using wk_refl].
  destruct (get_prev_input_history sd) as [s1 o1] eqn:E1. destruct (get_prev_input_history sdF) as [s2 o2] eqn:E2.
  destruct (prev_cases _ _ _ _ _ _ T E1 E2) as [(T' & W & ->)|(Fl & ->)]; [destruct o1 as [[?|]| |]; left; auto|right; auto].
Qed.
Lemma touch_lock m x id o oF : twin o oF -> lock SqliteError oF (vs_touch m x id o) (vs_touch m x id oF).
Proof.
  intros T. unfold vs_touch. destruct o as [sd|], oF as [sdF|]; try contradiction; [|destruct id; left; auto using wk_refl].
  destruct id as [i|]; [|left; auto using wk_refl]. unfold db_result, touch_variable. pose proof (call_lock (tx_touch_variable x i) _ _ T) as L.
  open_lock L; unfold lock; cbn [fst snd]. tauto.
Qed.
Lemma update_lock m x v id o oF : twin o oF -> lock SqliteError oF (vs_update m x v id o) (vs_update m x v id oF).
Proof.
  intros T. unfold vs_update. destruct o as [sd|], oF as [sdF|]; try contradiction; [|destruct id; left; auto using wk_refl].
  destruct id as [i|]; [|left; auto using wk_refl]. unfold db_result, set_variable. pose proof (call_lock (tx_set_variable x v i) _ _ T) as L.
  open_lock L; unfold lock; cbn [fst snd]. tauto.
Qed.
Definition up {X R} (p : X * saved_data * R) : X * option saved_data * R := (fst (fst p), Some (snd (fst p)), snd p).
Lemma reload_lock m x sd sdF : twin (Some sd) (Some sdF) ->
  lock SqliteError (Some sdF) (up (vs_reload m x sd)) (up (vs_reload m x sdF)).
Proof.
  intros T. unfold vs_reload, get_variable. destruct (sd_call (tx_get_variable x) sd) as [s1 o1] eqn:E1. destruct (sd_call (tx_get_variable x) sdF) as [s2 o2] eqn:E2.
  destruct (call_cases _ _ _ _ _ _ _ T E1 E2) as [(T' & W & ->)|(Fl & ->)]; [destruct o1 as [[?|]|?|?]; left; auto|right; auto].
Qed.
Lemma lookup_lock m x o oF : twin o oF -> lock SqliteError oF (vs_lookup m x o) (vs_lookup m x oF).
Proof.
  intros T. unfold vs_lookup. destruct (vs_get m x); [left; auto using wk_refl|]. destruct o as [sd|], oF as [sdF|]; try contradiction; [|left; auto using wk_refl].
  pose proof (reload_lock m x _ _ T) as L. destruct (vs_reload m x sd) as [[m1 s1] r1], (vs_reload m x sdF) as [[m2 s2] r2]. exact L.
Qed.
Lemma purge_lock m x o oF : twin o oF -> lock SqliteError oF (vs_purge m x o) (vs_purge m x oF).
Proof.
  intros T. unfold vs_purge. cbv zeta. destruct o as [sd|], oF as [sdF|]; try contradiction; [|left; auto using wk_refl].
  unfold clear_variable. destruct (sd_call _ sd) as [s1 o1] eqn:E1. destruct (sd_call _ sdF) as [s2 o2] eqn:E2.
  destruct (call_cases _ _ _ _ _ _ _ T E1 E2) as [(T' & W & ->)|(Fl & ->)]; [left; auto|right; auto].
Qed.
(** a chain of them *)
Lemma lock_then {X A E} (bad : E) oF o1 oF1 (p pF : X * option saved_data * outcome E A) : worked oF oF1 -> twin o1 oF1 ->
  lock bad oF1 p pF -> lock bad oF p pF.
Proof.
  intros W T. unfold lock. intros [(A1 & A2 & A3 & A4)|(A1 & A2)]; [left|right].
  - eauto 6 using wk_trans.
  - eauto using wk_failed.
Qed.
Lemma touch_loop_lock names id : forall m o oF, twin o oF -> lock SqliteError oF (touch_loop names id m o) (touch_loop names id m oF).
Proof.
  induction names as [|x names IH]; intros m o oF T; cbn [touch_loop]; [left; auto using wk_refl|].
  pose proof (touch_lock m x id _ _ T) as L. destruct (vs_touch m x id o) as [[m1 o1] r1], (vs_touch m x id oF) as [[m2 o2] r2].
  open_lock L; destruct L as [(-> & T' & W & ->)|(Fl & ->)]; [|right; auto].
  destruct r1; [|left; auto..]. eapply lock_then; [exact W|exact T'|]. apply IH, T'.
Qed.
Lemma purge_loop_lock names : forall m o oF, twin o oF -> lock SqliteError oF (purge_loop names m o) (purge_loop names m oF).
Proof.
  induction names as [|x names IH]; intros m o oF T; cbn [purge_loop]; [left; auto using wk_refl|].
  pose proof (purge_lock m x _ _ T) as L. destruct (vs_purge m x o) as [[m1 o1] r1], (vs_purge m x oF) as [[m2 o2] r2].
  open_lock L; destruct L as [(-> & T' & W & ->)|(Fl & ->)]; [|right; auto].
  destruct r1; [|left; auto..]. eapply lock_then; [exact W|exact T'|]. apply IH, T'.
Qed.
Lemma reload_loop_lock names : forall out t m sd sdF, twin (Some sd) (Some sdF) ->
  lock SqliteError (Some sdF) (up (reload_loop names out t m sd)) (up (reload_loop names out t m sdF)).
Proof.
  induction names as [|x names IH]; intros out t m sd sdF T; cbn [reload_loop]; [left; auto using (wk_refl (Some sdF))|].
  cbv zeta. pose proof (reload_lock m x _ _ T) as L. destruct (vs_reload m x sd) as [[m1 s1] r1], (vs_reload m x sdF) as [[m2 s2] r2]. unfold up in L.
  open_lock L; destruct L as [(-> & T' & W & ->)|(Fl & ->)]; [|right; auto].
  destruct r1 as [[v|]|?|?]; [| |left; auto..].
  all: eapply lock_then; [exact W|exact T'|]; apply IH, T'.
Qed.

(** Environments. *)
Definition twin_env (s sF : env) : Prop := e_vars sF = e_vars s /\ twin (e_db s) (e_db sF).
Definition lock_env {A} (sF : env) (p pF : env * outcome failure A) : Prop :=
  (twin_env (fst p) (fst pF) /\ worked (e_db sF) (e_db (fst pF)) /\ snd pF = snd p) \/
  (failed (e_db sF) (e_db (fst pF)) /\ snd pF = Err (RuntimeError SqliteError)).
Lemma lock_pure {A} s sF (r : outcome failure A) : twin_env s sF -> lock_env sF (s, r) (sF, r).
Proof. intros T. left. split; [exact T|]. split; [apply wk_refl|reflexivity]. Qed.
Lemma lock_from {A} sF sF1 (p pF : env * outcome failure A) : worked (e_db sF) (e_db sF1) -> lock_env sF1 p pF -> lock_env sF p pF.
Proof. intros W [(A1 & A2 & A3)|(A1 & A2)]; [left; eauto using wk_trans|right; eauto using wk_failed]. Qed.
Lemma then_lock {A B} sF (p pF : env * outcome failure A) (f : A -> env -> env * outcome failure B) : lock_env sF p pF ->
  (forall a s1 sF1, twin_env s1 sF1 -> lock_env sF1 (f a s1) (f a sF1)) -> lock_env sF (then_do p f) (then_do pF f).
Proof.
  destruct p as [s1 r], pF as [sF1 rF]. intros [(T & W & E)|(Fl & E)] H; cbn [fst snd] in *; subst rF.
  - destruct r as [a|e|q]; cbn [then_do]; [eapply lock_from; [exact W|apply H, T]|left; auto..].
  - right. auto.
Qed.
Lemma touch_all_lock names id s sF : twin_env s sF -> lock_env sF (touch_all names id s) (touch_all names id sF).
Proof.
  intros TT. pose proof TT as (V & T). unfold touch_all. rewrite V. destruct (e_vars s) as [m|]; [|apply lock_pure, TT].
  pose proof (touch_loop_lock names id m _ _ T) as L. destruct (touch_loop names id m (e_db s)) as [[m1 o1] r1], (touch_loop names id m (e_db sF)) as [[m2 o2] r2].
  open_lock L; destruct L as [(-> & T' & W & ->)|(Fl & ->)]; [left|right]; cbn; auto. split; [split; [reflexivity|exact T']|auto].
Qed.
Lemma variable_lock x p s sF : twin_env s sF -> lock_env sF (exec_variable x p s) (exec_variable x p sF).
Proof.
  intros TT. pose proof TT as (V & T). unfold exec_variable. rewrite V. destruct (e_vars s) as [m|]; [|apply lock_pure, TT].
  pose proof (lookup_lock m x _ _ T) as L. destruct (vs_lookup m x (e_db s)) as [[m1 o1] r1], (vs_lookup m x (e_db sF)) as [[m2 o2] r2].
  open_lock L; destruct L as [(-> & T' & W & ->)|(Fl & ->)]; [left|right]; cbn; auto. split; [split; [reflexivity|exact T']|auto].
Qed.
Fixpoint exec_lock pr a n {struct n} : forall s sF, twin_env s sF -> lock_env sF (exec pr a n s) (exec pr a n sF).
Proof.
  destruct n as [v p|x p|op p n|op p l r|f p ns w|p q n]; intros s sF T.
  - apply lock_pure, T.
  - apply variable_lock, T.
  - cbn [exec]. apply then_lock; [apply exec_lock, T|]. intros. apply lock_pure. assumption.
  - cbn [exec]. apply then_lock; [apply exec_lock, T|]. intros v s1 sF1 T1. apply then_lock; [apply exec_lock, T1|]. intros. apply lock_pure. assumption.
  - cbn [exec]. apply then_lock; [|intros; apply lock_pure; assumption]. revert s sF T. induction ns as [|m ns IH]; intros s sF T; [apply lock_pure, T|].
    apply then_lock; [apply exec_lock, T|]. intros v s1 sF1 T1. apply then_lock; [apply IH, T1|]. intros. apply lock_pure. assumption.
  - cbn [exec]. apply exec_lock, T.
Qed.
Lemma tree_lock pr a t id s sF : twin_env s sF -> lock_env sF (tree_execute pr a t id s) (tree_execute pr a t id sF).
Proof.
  intros T. unfold tree_execute. apply then_lock; [apply exec_lock, T|]. intros v s1 sF1 TT. pose proof TT as (V & T1). destruct (st_var t) as [y|]; [|apply lock_pure, TT].
  rewrite V. destruct (e_vars s1) as [m|]; [|apply lock_pure, TT].
  pose proof (update_lock m (pd_value y) v id _ _ T1) as L. destruct (vs_update m (pd_value y) v id (e_db s1)) as [[m1 o1] r1], (vs_update m (pd_value y) v id (e_db sF1)) as [[m2 o2] r2].
  open_lock L; destruct L as [(-> & T' & W & ->)|(Fl & ->)]; [left|right]; cbn; auto. split; [split; [reflexivity|exact T']|auto].
Qed.

(** Commands and lines: three-part results. *)
Definition lock_cmd {A} (sF : env) (p pF : args * env * outcome failure A) : Prop :=
  fst (fst pF) = fst (fst p) /\ lock_env sF (snd (fst p), snd p) (snd (fst pF), snd pF).
Lemma cmd_pure {A} a s sF (r : outcome failure A) : twin_env s sF -> lock_cmd sF (a, s, r) (a, sF, r).
Proof. intros T. split; [reflexivity|]. apply lock_pure, T. Qed.

Lemma command_lock pr ord x c arg a s sF : twin_env s sF -> lock_cmd sF (run_command pr ord x c arg a s) (run_command pr ord x c arg a sF).
Proof.
  intros TT. pose proof TT as (V & T).
  assert (Mem : forall z, short_help z sF = short_help z s /\ long_help z sF = long_help z s).
  { intros z. assert (Nn : is_none (e_db sF) = is_none (e_db s) /\ is_none (e_vars sF) = is_none (e_vars s)) by (rewrite V; destruct (e_db s), (e_db sF); cbn in T; try contradiction; auto).
    destruct z; cbn [short_help long_help]; auto; split; try reflexivity; destruct Nn as (N1 & N2); rewrite ?N1, ?N2; reflexivity. }
  destruct c; cbn [run_command].
  - unfold exec_help. destruct (ptrim arg) as [n|e|p]; [|apply cmd_pure, TT..]. destruct (pd_value n) as [|c0 w] eqn:En.
    + cbv zeta. unfold cmd_done. match goal with |- lock_cmd _ (_, _, Ok (?t1, _)) (_, _, Ok (?t2, _)) => assert (Z : t2 = t1) end.
      { f_equal. f_equal. apply map_ext. intros y. destruct (assoc y (x_commands x)) as [z|]; [|reflexivity]. rewrite (proj1 (Mem z)). reflexivity. }
      rewrite Z. apply cmd_pure, TT.
    + destruct (assoc _ _) as [z|]; [|apply cmd_pure, TT]. unfold cmd_done. rewrite (proj2 (Mem z)). apply cmd_pure, TT.
  - unfold exec_reloadvar. destruct (tokenize_variable_list _) as [l|e|p]; [|apply cmd_pure, TT..].
    rewrite V. destruct (e_db s) as [sd|] eqn:D, (e_db sF) as [sdF|] eqn:DF; try contradiction; [|apply cmd_pure, TT].
    destruct (e_vars s) as [m|]; [|apply cmd_pure, TT].
    pose proof (reload_loop_lock (ord (name_set l)) [] [] m _ _ T) as L.
    destruct (reload_loop _ _ _ m sd) as [[m1 s1] r1], (reload_loop _ _ _ m sdF) as [[m2 s2] r2]. unfold up in L. open_lock L. split; [reflexivity|].
    destruct L as [(-> & T' & W & ->)|(Fl & ->)]; [left|right]; cbn [fst snd e_db]; rewrite ?DF; auto. split; [split; [reflexivity|exact T']|auto].
  - unfold exec_purgevar. destruct (tokenize_variable_list _) as [l|e|p]; [|apply cmd_pure, TT..].
    rewrite V. destruct (e_vars s) as [m|]; [|apply cmd_pure, TT].
    pose proof (purge_loop_lock (ord (name_set l)) m _ _ T) as L.
    destruct (purge_loop _ m (e_db s)) as [[m1 s1] r1], (purge_loop _ m (e_db sF)) as [[m2 s2] r2]. open_lock L. split; [reflexivity|].
    destruct L as [(-> & T' & W & ->)|(Fl & ->)]; [left|right]; cbn [fst snd e_db]; auto. split; [split; [reflexivity|exact T']|auto].
  - unfold exec_histcap. destruct (tokenize_int_list _ _ _) as [[|i [|j l]]|e|p]; try apply cmd_pure, TT.
    + destruct (e_db s) as [sd|] eqn:D, (e_db sF) as [sdF|] eqn:DF; try contradiction; [|apply cmd_pure, TT].
      unfold get_max_history_size. destruct (sd_call _ sd) as [s1 o1] eqn:E1. destruct (sd_call _ sdF) as [s2 o2] eqn:E2. split; [reflexivity|].
      destruct (call_cases _ _ _ _ _ _ _ T E1 E2) as [(T' & W & ->)|(Fl & ->)]; [left|right]; cbn [fst snd e_db]; rewrite ?DF; auto. split; [split; [exact V|exact T']|auto].
    + destruct (validate_max_history_size _); [apply cmd_pure, TT|].
      destruct (e_db s) as [sd|] eqn:D, (e_db sF) as [sdF|] eqn:DF; try contradiction; [|apply cmd_pure, TT].
      unfold set_max_history_size. destruct (sd_call _ sd) as [s1 o1] eqn:E1. destruct (sd_call _ sdF) as [s2 o2] eqn:E2. split; [reflexivity|].
      destruct (call_cases _ _ _ _ _ _ _ T E1 E2) as [(T' & W & ->)|(Fl & ->)]; [left|right]; cbn [fst snd e_db]; rewrite ?DF; auto. split; [split; [exact V|exact T']|auto].
  - unfold exec_bool_setting, cmd_done. cbv zeta. destruct (trim _); [apply cmd_pure, TT|]. destruct (_ || _); [apply cmd_pure, TT|]. destruct (_ || _); apply cmd_pure, TT.
  - unfold exec_radix, cmd_done. destruct (parse_radix_arg _ _) as [[v|]|e|p]; apply cmd_pure, TT.
  - unfold exec_converttoradix, cmd_done. destruct (str_eqb _ _); [apply cmd_pure, TT|]. destruct (parse_radix_arg _ _) as [[v|]|e|p]; apply cmd_pure, TT.
  - unfold exec_bool_setting, cmd_done. cbv zeta. destruct (trim _); [apply cmd_pure, TT|]. destruct (_ || _); [apply cmd_pure, TT|]. destruct (_ || _); apply cmd_pure, TT.
  - unfold exec_bool_setting, cmd_done. cbv zeta. destruct (trim _); [apply cmd_pure, TT|]. destruct (_ || _); [apply cmd_pure, TT|]. destruct (_ || _); apply cmd_pure, TT.
  - unfold exec_precision, cmd_done. cbv zeta. destruct (tokenize_int_list _ _ _) as [[|i [|j [|k l]]]|e|p]; try apply cmd_pure, TT; destruct (check_precision _ _ _) as [[v w]|e|p]; apply cmd_pure, TT.
Qed.

Lemma body_lock pr ord x input id a s sF : twin_env s sF -> lock_cmd sF (calculate_body pr ord x input id a s) (calculate_body pr ord x input id a sF).
Proof.
  intros TT. unfold calculate_body. destruct (tokenize input (a_radix a)) as [[ts|name arg]|e|p]; [| |apply cmd_pure, TT..].
  - pose proof (touch_all_lock (ord (token_variables ts)) id _ _ TT) as L. destruct (touch_all _ id s) as [s1 r1], (touch_all _ id sF) as [s2 r2].
    destruct L as [(T1 & W & E)|(Fl & E)]; cbn [fst snd] in *; subst r2.
    + destruct r1 as [[]|e|p]; [|split; [reflexivity|left; auto]..]. destruct ts as [|t ts]; [split; [reflexivity|left; auto]|].
      destruct (syntax_tree_new _) as [tr|e|p]; [|split; [reflexivity|left; auto]..].
      pose proof (tree_lock pr a tr id _ _ T1) as L. destruct (tree_execute pr a tr id s1) as [s3 r3], (tree_execute pr a tr id s2) as [s4 r4]. split; [reflexivity|].
      apply (lock_from _ s2 _ _ W). destruct L as [(T3 & W3 & E3)|(F3 & E3)]; cbn [fst snd] in *; subst r4; [left|right]; auto.
    + split; [|right; auto]. destruct r1 as [[]|e|p]; [|reflexivity..]. destruct ts; [reflexivity|]. destruct (syntax_tree_new _); [|reflexivity..]. destruct (tree_execute _ _ _ _ s1). reflexivity.
  - unfold execute_command. destruct (assoc _ _) as [c|]; [|apply cmd_pure, TT].
    destruct (command_lock pr ord x c arg a _ _ TT) as (Ea & L). destruct (run_command pr ord x c arg a s) as [[a1 s1] r1], (run_command pr ord x c arg a sF) as [[a2 s2] r2].
    cbn [fst snd] in *. subst a2. destruct L as [(T1 & W & E)|(Fl & E)]; cbn [fst snd] in *; subst r2.
    + destruct r1 as [[msg names]|e|p]; [|split; [reflexivity|left; auto]..].
      pose proof (touch_all_lock names id _ _ T1) as L. destruct (touch_all names id s1) as [s3 r3], (touch_all names id s2) as [s4 r4]. split; [reflexivity|].
      apply (lock_from _ s2 _ _ W). destruct L as [(T3 & W3 & E3)|(F3 & E3)]; cbn [fst snd] in *; subst r4; [left|right]; auto.
    + split; [|right; auto]. destruct r1 as [[msg names]|e|p]; [|reflexivity..]. destruct (touch_all names id s1). reflexivity.
Qed.
Definition lock_session {A} (sF : env) (p pF : session * outcome failure A) : Prop :=
  (twin_env (s_env (fst p)) (s_env (fst pF)) /\ worked (e_db sF) (e_db (s_env (fst pF))) /\
   s_args (fst pF) = s_args (fst p) /\ s_inputs (fst pF) = s_inputs (fst p) /\ snd pF = snd p) \/
  (failed (e_db sF) (e_db (s_env (fst pF))) /\ snd pF = Err (RuntimeError SqliteError)).
Lemma calculate_lock pr ord x input a h s sF : twin_env s sF ->
  lock_session sF (calculate pr ord x input (mkSession a (Some h) s)) (calculate pr ord x input (mkSession a (Some h) sF)).
Proof.
  intros TT. unfold calculate. cbn [s_inputs s_env s_args]. pose proof TT as (V & T). pose proof (finished_lock h _ _ T) as L. rewrite V.
  destruct (input_finished h (e_db s)) as [[h1 o1] r1], (input_finished h (e_db sF)) as [[h2 o2] r2]. open_lock L.
  destruct L as [(-> & T' & W & ->)|(Fl & ->)]; [|right; auto].
  assert (T1 : twin_env (mkEnv (e_vars s) o1) (mkEnv (e_vars s) o2)) by (split; [reflexivity|exact T']).
  destruct r1 as [id|e|p]; [|left; cbn [fst snd s_env s_args s_inputs]; auto..].
  destruct (body_lock pr ord x input id a _ _ T1) as (Ea & L). destruct (calculate_body _ _ _ _ _ a (mkEnv (e_vars s) o1)) as [[a1 s1] r1], (calculate_body _ _ _ _ _ a (mkEnv (e_vars s) o2)) as [[a2 s2] r2].
  cbn [fst snd s_env s_args s_inputs] in *. subst a2. pose proof (lock_from _ (mkEnv (e_vars s) o2) _ _ W L) as [(A1 & A2 & A3)|(A1 & A2)]; [left|right]; cbn [fst snd s_env s_args s_inputs] in *; auto.
Qed.

(** ** One event *)
(** the same state but for the failures to come *)
Definition twin_ui (u uF : ui) : Prop :=
  u_args uF = u_args u /\ u_vars uF = u_vars u /\ twin (u_db u) (u_db uF) /\ u_inputs uF = u_inputs u /\ u_line uF = u_line u /\ u_count uF = u_count u.
Definition lock_ui (uF : ui) (p pF : ui * list tcmd * status) : Prop :=
  (twin_ui (fst (fst p)) (fst (fst pF)) /\ worked (u_db uF) (u_db (fst (fst pF))) /\ snd (fst pF) = snd (fst p) /\ snd pF = snd p) \/
  failed (u_db uF) (u_db (fst (fst pF))).
Lemma start_lock pr tm u uF : twin_ui u uF -> lock_ui uF (start_line pr tm u) (start_line pr tm uF).
Proof.
  intros (A & V & T & I & L & C). unfold start_line. cbv zeta. rewrite A, V, I, ?L, C.
  destruct (display _ _ _ _ _) as [[l o]|e|p]; left; cbn [fst snd u_db]; (split; [repeat split; auto; exact T|]); auto using wk_refl.
Qed.
Lemma start_db pr tm u : u_db (fst (fst (start_line pr tm u))) = u_db u.
Proof. unfold start_line. cbv zeta. destruct (display _ _ _ _ _) as [[l o]|e|p]; reflexivity. Qed.
Lemma finish_lock pr ord x tm u uF : twin_ui u uF -> lock_ui uF (finish_line pr ord x tm u) (finish_line pr ord x tm uF).
Proof.
  intros TU. pose proof TU as (A & V & T & I & L & C). unfold finish_line. cbv zeta. rewrite A, V, I, ?L, C.
  destruct (display _ _ _ _ _) as [[l o]|e|p]; [|left; auto using wk_refl..].
  destruct (current_line (u_inputs u)) as [input|e|p]; [|left; auto using wk_refl..].
  pose proof (calculate_lock pr (ord (u_count u)) x input (u_args u) (u_inputs u) (mkEnv (Some (u_vars u)) (u_db u)) (mkEnv (Some (u_vars u)) (u_db uF)) (conj eq_refl T)) as K.
  destruct (calculate _ _ _ _ _) as [se r]. destruct (calculate _ _ _ _ _) as [seF rF]. destruct K as [((Ev & Et) & W & Ea & Ei & E)|(Fl & E)]; cbn [fst snd e_db] in *.
  - subst rF. rewrite Ea, Ei, Ev.
    match goal with |- lock_ui _ (match render r with Ok _ => let '(_, _) := start_line _ _ ?u1 in _ | _ => _ end) (match render r with Ok _ => let '(_, _) := start_line _ _ ?u2 in _ | _ => _ end) =>
      assert (TU1 : twin_ui u1 u2) by (repeat split; auto; exact Et); pose proof (start_lock pr tm _ _ TU1) as S end.
    destruct (render r) as [text|e|p]; [|left; auto..].
    match type of S with lock_ui _ (start_line _ _ ?u1) (start_line _ _ ?u2) => destruct (start_line pr tm u1) as [[v1 o1] s1], (start_line pr tm u2) as [[v2 o2] s2] end.
    destruct S as [(S1 & S2 & S3 & S4)|S1]; [left|right]; cbn [fst snd u_db] in *; [|eapply wk_failed; eauto].
    split; [exact S1|]. split; [eapply wk_trans; eauto|]. split; [congruence|exact S4].
  - right. destruct (render rF) as [text|e|p]; [|exact Fl..].
    match goal with |- context [start_line pr tm ?u0] => pose proof (start_db pr tm u0) as D; destruct (start_line pr tm u0) as [[u'' out3] st] end.
    cbn [fst u_db] in *. rewrite D. exact Fl.
Qed.
Definition lock_ev (oF : option saved_data) (r rF : ev_result) : Prop :=
  let '(l, h, db, act) := r in let '(lF, hF, dbF, actF) := rF in
  (lF = l /\ hF = h /\ twin db dbF /\ worked oF dbF /\ actF = act) \/ (failed oF dbF /\ exists e, actF = AFail e).
Lemma or_stop_lock {A} (r : outcome runtime_error A) l h db oF dbF k kF : twin db dbF -> worked oF dbF -> (forall a, lock_ev oF (k a) (kF a)) ->
  lock_ev oF (or_stop r l h db k) (or_stop r l h dbF kF).
Proof. intros T W K. destruct r as [a|e|p]; cbn [or_stop]; [apply K|left; auto..]. Qed.
Lemma event_lock ev l h db dbF : twin db dbF -> lock_ev dbF (handle_event ev l h db) (handle_event ev l h dbF).
Proof.
  intros T. assert (Keep : forall l' h' act, lock_ev dbF (l', h', db, act) (l', h', dbF, act)) by (intros; left; auto using wk_refl).
  assert (Or : forall A (r : outcome runtime_error A) l h k kF, (forall a, lock_ev dbF (k a) (kF a)) -> lock_ev dbF (or_stop r l h db k) (or_stop r l h dbF kF)) by (intros; apply or_stop_lock; auto using wk_refl).
  destruct ev as [code mods| |width|]; try apply Keep. cbn [handle_event]. destruct code as [c| | | | | | | | | |]; try apply Keep.
  - unfold handle_char. destruct (negb (is_ascii c)); [apply Keep|].
    destruct (N.eqb mods CONTROL && (N.eqb c 100 || N.eqb c 122 || N.eqb c 99)); [apply Keep|].
    destruct (N.eqb mods CONTROL && (N.eqb c 109 || N.eqb c 110)).
    { apply Or. intros t. apply Or. intros [q|]; apply Keep. }
    destruct (N.eqb mods SHIFT); [apply Or; intros; apply Keep|]. destruct (negb (N.eqb mods 0)); [apply Keep|apply Or; intros; apply Keep].
  - destruct (Nat.eqb (l_cursor l) 0); [apply Keep|]. apply Or. intros; apply Keep.
  - apply Or. intros t. destruct (Nat.leb _ _); [apply Keep|]. apply Or. intros; apply Keep.
  - pose proof (earlier_lock h _ _ T) as L. destruct (try_earlier h db) as [[h1 o1] r1], (try_earlier h dbF) as [[h2 o2] r2]. open_lock L.
    destruct L as [(-> & T' & W & ->)|(Fl & ->)].
    2:{ set (z := match r1 with Ok _ => _ | _ => _ end). destruct z as [[[? ?] ?] ?]. right. eauto. }
    destruct r1 as [[|]|e|p]; [|left; auto..]. apply or_stop_lock; [exact T'|exact W|]. intros t. left; auto.
  - destruct (try_later h) as [h' [|]]; [|apply Keep]. apply Or. intros; apply Keep.
  - destruct (move_distance mods); apply Keep.
  - destruct (move_distance mods); [|apply Keep]. apply Or. intros; apply Keep.
  - apply Or. intros; apply Keep.
Qed.
Lemma step_lock pr ord x tm ev u uF : twin_ui u uF -> lock_ui uF (ui_step pr ord x tm ev u) (ui_step pr ord x tm ev uF).
Proof.
  intros (A & V & T & I & L & C). unfold ui_step. pose proof (event_lock ev (u_line u) (u_inputs u) _ _ T) as K. rewrite A, V, I, ?L, C.
  destruct (handle_event ev _ _ (u_db u)) as [[[l h] db] act], (handle_event ev _ _ (u_db uF)) as [[[l2 h2] dbF] act2].
  destruct K as [(-> & -> & T' & W & ->)|(Fl & e & ->)]; [|right; exact Fl].
  assert (TU : forall l', twin_ui (mkUi (u_args u) (u_vars u) db h l' (u_count u)) (mkUi (u_args u) (u_vars u) dbF h l' (u_count u))) by (repeat split; exact T').
  destruct act; try (left; split; [apply TU|]; auto; fail).
  - destruct (display _ _ _ _ _) as [[l'' out]|e|p]; left; (split; [apply TU|auto]).
  - destruct (finish_lock pr ord x tm _ _ (TU l)) as [(S1 & S2 & S3 & S4)|S1]; [left|right]; cbn [u_db] in *; [|eapply wk_failed; eauto].
    split; [exact S1|]. split; [eapply wk_trans; eauto|]. auto.
Qed.
Lemma with_faults_twin F u : calm_odb (u_db u) -> twin_ui u (with_faults F u).
Proof. intros H. unfold with_faults. destruct (u_db u) as [sd|] eqn:D; repeat split; cbn [u_db]; rewrite ?D; cbn; auto. Qed.
